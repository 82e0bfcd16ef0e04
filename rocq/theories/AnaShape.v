(** Buffer sizes are preserved by the analog operations and by the crossbar. *)
From Coq Require Import List ZArith Bool Arith Lia ZifyBool ZifyNat String.
From RecordUpdate Require Import RecordSet.
From Verif Require Import Base Lib Hoare Machine Json Config Histogram Adc ReadDisturb Parasitics ParCode
  Mapper IntMappers BnnMappers TnnMappers Crossbar Shape MvmShape.
Import ListNotations RecordSetNotations.
Local Open Scope Z_scope.
Local Open Scope out_scope.
Ltac Zify.zify_post_hook ::= idtac.

Section AS.
Context {MC : Machine}.
Notation MM c := (Z.to_nat (M c)).
Notation len := List.length.

(** Only the analog cell currents and the solver differ. *)
Definition same_but_analog (mp mp' : mapper) : Prop :=
  exists ip im ip0 im0 p, mp' = mp <| ia_p := ip |> <| ia_m := im |> <| ia_p0 := ip0 |>
                                   <| ia_m0 := im0 |> <| par := p |>.

Record rdshape (c : config) (r : rdm) : Prop := {
  rs_cp : wf2 (rowsN c) (colsN c) (cyc_p r);
  rs_cm : wf2 (rowsN c) (colsN c) (cyc_m r);
  rs_kp : wf2 (rowsN c) (colsN c) (con_p r);
  rs_km : wf2 (rowsN c) (colsN c) (con_m r)
}.

Record xok (c : config) (x : xbar) : Prop := {
  xo_shape : shape c (xm x);
  xo_rd : forall r, xrd x = Some r -> rdshape c r;
  xo_some : read_disturb c = true -> xrd x <> None
}.

Lemma rdshape_new c v : rdshape c (rd_new c v).
Proof. constructor; cbn; apply wf2_mat2. Qed.
Lemma xbar_new_ok c x : xbar_new c = Ok x -> xok c x.
Proof.
  unfold xbar_new. intros H. apply bind_Ok in H. destruct H as (mp & Hm & H).
  inversion H; subst; clear H. constructor; cbn.
  - now apply mapper_new_shape.
  - intros r Hr. destruct (read_disturb c); inversion Hr. apply rdshape_new.
  - intros ->. discriminate.
Qed.

Section T.
Context (ok : out False -> Prop) (HL : harmless ok) (c : config).
Notation oob := (ok (UB OutOfBounds)).
Notation any := (forall o, ok o).

Lemma tri_all {A} (P : A -> Prop) x : any -> (forall a, x = Ok a -> P a) -> tri ok P x.
Proof. intros Ha H. destruct x; cbn; auto. Qed.

(** ** ADC *)
Lemma tri_adc1 a l x s o : tri ok tt (adc1 c a l x s o).
Proof.
  assert (H : forall p : F * F, tri ok tt (let '(mn, mx) := p in quantize (a_steps a) mn mx x s o)).
  { intros [mn mx]. unfold quantize. apply (tri_bind ok tt); [now apply tri_chk32|]. now intros. }
  assert (H' : tri ok tt (get_currents c a l)).
  { unfold get_currents. destruct (adc_calib_mode c); [exact I|]. destruct (assoc l _); [exact I|apply HL]. }
  unfold adc1. destruct (a_ty a); [exact I| |]; apply (tri_bind ok tt _ _ _ H'); intros p _; apply H.
Qed.

Lemma tri_adc_vec a l m t s o e : any \/ adc_profile c = false ->
  tri ok (fun '(t', e') => len t' = len t /\ draws e' = draws e /\
            (adc_profile c = false -> e' = e)) (adc_vec c a l m t s o e).
Proof.
  intros HC. unfold adc_vec. destruct (_ <? _)%nat eqn:El; [apply HL|].
  apply (tri_bind ok (fun e' => draws e' = draws e /\ (adc_profile c = false -> e' = e))).
  - destruct HC as [Ha|Hp].
    + apply tri_all; auto. intros e' He. destruct (adc_profile c).
      * unfold profile in He. apply bind_Ok in He. destruct He as (h & _ & He).
        apply bind_Ok in He. destruct He as (h' & _ & He). inversion He. split; [easy|discriminate].
      * inversion He; auto.
    + rewrite Hp. now cbn.
  - intros e' [He He']. apply (tri_bind ok (fun t' => len t' = len t)).
    + apply tri_loop; auto. intros i v Hi Hv.
      apply (tri_bind ok tt). { apply tri_get; [right; lia|now intros]. } intros x _.
      apply (tri_bind ok tt); [apply tri_adc1|]. intros y _.
      apply tri_set; [right; lia|]. intros _. now rewrite upd_length.
    + now intros t' Ht'.
Qed.

Lemma tri_inv_imm mp k : tri ok tt (inv_imm mp k).
Proof. unfold inv_imm, use. destruct (i_mm mp); cbn; [exact I|apply HL]. Qed.
Lemma tri_use {A} (o : option A) : tri ok tt (use o).
Proof. destruct o; cbn; [exact I|apply HL]. Qed.

(** ** Current sums *)
Lemma compute_currents_len mp vp vm m n t : shape c mp ->
  compute_currents (par mp) vp vm m n = Ok t -> len t = MM c.
Proof.
  intros Hs H. unfold compute_currents in H. destruct (par mp) as [p|] eqn:Ep; [|discriminate].
  destruct (sh_par _ _ Hs p Ep) as (Hm & _ & _). rewrite <- Hm.
  apply bind_Ok in H. destruct H as (vd & _ & H).
  apply bind_Ok in H. destruct H as (r0 & _ & H).
  apply bind_Ok in H. destruct H as (acc & _ & H).
  revert t H. apply tri_any. unfold encode_o. set (z := repeat _ _).
  assert (Hz : len z = ps_m p) by apply repeat_length.
  destruct (oenc_double _); apply tri_loop; auto; intros i r Hi Hr.
  - apply (tri_bind anyfail tt); [apply tri_get; [left; exact I|now intros]|]. intros x _.
    apply (tri_bind anyfail tt); [apply tri_get; [left; exact I|now intros]|]. intros y _.
    apply tri_set; [left; exact I|]. intros _. now rewrite upd_length.
  - apply (tri_bind anyfail tt); [apply tri_get; [left; exact I|now intros]|]. intros x _.
    apply tri_set; [left; exact I|]. intros _. now rewrite upd_length.
Qed.

(** Currents the solver is asked for by an MVM of m outputs. *)
Definition outs (m : nat) : nat :=
  if is_int (m_mode c) then (m * nsplit c)%nat
  else match m_mode c with TNN_IV | TNN_V => (2 * m)%nat | _ => m end.
(** No solver, or one whose conductances were written and are large enough. *)
Definition psafe (mp : mapper) (m n : nat) : Prop :=
  (parasitics c = false /\ par mp = None) \/
  (parasitics c = true /\ exists p K, par mp = Some p /\ armed p K /\ (1 <= colsN c)%nat /\ (outs m <= MM c)%nat /\
     (outcols p (outs m) <= K)%nat /\ (ienc_double (m_mode c) = true -> 2 * n <= colsN c)%nat).
(** Everything the analog operations rely on to stay in bounds. *)
Definition calm (mp : mapper) (m n : nat) (lr lv : nat) : Prop :=
  any \/ ((m <= MM c)%nat /\ (n <= colsN c)%nat /\ (m <= lr)%nat /\ (n <= lv)%nat /\
          (1 <= nsplit c)%nat /\ psafe mp m n /\ adc_profile c = false).

Ltac bc HC := destruct HC as [HC|(?&?&?&?&?&?&?)];
  [left; apply HC|right; unfold rowsN in *; try nia].

Lemma psafe_off mp m n : psafe mp m n -> parasitics c = false -> par mp = None.
Proof. intros [[_ H]|[H _]]; [auto|congruence]. Qed.
Lemma psafe_ok mp m n vp vm : shape c mp -> psafe mp m n -> parasitics c = true -> (n <= colsN c)%nat ->
  len vp = colsN c -> (ienc_double (m_mode c) = true -> len vm = colsN c) ->
  exists t, compute_currents (par mp) vp vm (outs m) n = Ok t /\ len t = MM c /\ (outs m <= MM c)%nat.
Proof.
  intros Hs HP Ep Hn Hvp Hvm. destruct HP as [[H _]|(_ & p & K & Hp & [Hg [w Hw]] & H1 & Ho & HK & H2)]; [congruence|].
  destruct (sh_par _ _ Hs p Hp) as (E1 & E2 & E3). rewrite Hp.
  destruct (compute_currents_ok p vp vm (outs m) n K w) as (t & E & Ht & _); auto; try (rewrite ?E1, ?E2; lia).
  { rewrite E3, E2. intros Hi. specialize (Hvm Hi). specialize (H2 Hi). split; [|lia].
    intros ->. cbn in Hvm. lia. }
  exists t. rewrite E1 in Ht. auto.
Qed.

Lemma calm_prof mp m n lr lv : calm mp m n lr lv -> any \/ adc_profile c = false.
Proof. unfold calm. tauto. Qed.

Lemma tri_currents mp term vp vm m n lr lv t : shape c mp -> calm mp m n lr lv -> len t = MM c ->
  outs m = m -> len vp = colsN c -> (ienc_double (m_mode c) = true -> len vm = colsN c) ->
  (forall i j, (i < m)%nat -> (j < n)%nat -> tri ok tt (term i j)) ->
  tri ok (fun t' => len t' = MM c) (currents c mp term vp vm m n t).
Proof.
  intros Hs HC Ht Eo Hvp Hvm Hterm. unfold currents. destruct (parasitics c) eqn:Ep.
  - destruct HC as [HC|(?&?&?&?&?&HP&?)].
    + apply tri_all; auto. intros t' Ht'. eapply compute_currents_len; eauto.
    + destruct (psafe_ok mp m n vp vm Hs HP Ep) as (t' & E & Ht' & _); auto. rewrite Eo in E. rewrite E. exact Ht'.
  - rewrite <- Ht. apply tri_facc2; auto. rewrite Ht. bc HC.
Qed.

(** Lengths of the slice currents: after the solver they have M entries. *)
Definition tlen (mp : mapper) (t : list F) : Prop :=
  (par mp = None -> len t = rowsN c) /\ (parasitics c = true -> len t = MM c).
Lemma tlen_in mp m n lr lv t i s : calm mp m n lr lv -> is_int (m_mode c) = true -> tlen mp t ->
  (i < m)%nat -> (s < nsplit c)%nat -> oob \/ (i * nsplit c + s < len t)%nat.
Proof.
  intros HC Hi [H1 H2] Him Hs. destruct HC as [HC|(?&?&?&?&?&HP&?)]; [left; apply HC|right].
  destruct HP as [[_ Hn]|(Ep & p & K & _ & _ & _ & Ho & _)].
  - rewrite (H1 Hn). unfold rowsN. nia.
  - rewrite (H2 Ep). unfold outs in Ho. rewrite Hi in Ho. nia.
Qed.
Lemma tri_slice_currents mp term vds m n lr lv t : shape c mp -> calm mp m n lr lv ->
  is_int (m_mode c) = true -> len vds = colsN c ->
  (par mp = None -> len t = rowsN c) ->
  (forall i j, (i < m * nsplit c)%nat -> (j < n)%nat -> tri ok tt (term i j)) ->
  tri ok (tlen mp) (slice_currents c mp term vds (m * nsplit c) n t).
Proof.
  intros Hs HC Hi Hv Ht Hterm. unfold slice_currents. destruct (parasitics c) eqn:Ep.
  - destruct HC as [HC|(?&?&?&?&?&HP&?)].
    + apply tri_all; auto. intros t' Ht'. split; [intros Hn; rewrite Hn in Ht'; discriminate|].
      intros _. eapply compute_currents_len; eauto.
    + destruct (psafe_ok mp m n vds [] Hs HP Ep) as (t' & E & Ht' & _); auto.
      { intros H5. destruct (m_mode c); discriminate. }
      unfold outs in E. rewrite Hi in E. rewrite E. split; [|auto]. intros Hn. rewrite Hn in E. discriminate.
  - apply (tri_weaken ok (fun t' => len t' = len t)).
    + apply tri_facc2; auto. destruct HC as [HC|(?&?&?&?&?&HP&?)]; [left; apply HC|right].
      rewrite (Ht (psafe_off _ _ _ HP Ep)). unfold rowsN. nia.
    + intros t' Ht'. split; [|congruence]. intros Hn. rewrite Ht'; auto.
Qed.

Lemma tri_slice_vd vd vds n b C : len vd = C -> len vds = C -> any \/ (n <= C)%nat ->
  tri ok (fun s => len s = C) (slice_vd vd vds n b).
Proof.
  intros H1 H2 HB. unfold slice_vd. apply tri_loop; auto. intros j s Hj Hs.
  apply (tri_bind ok tt). { apply tri_get; [destruct HB; [auto|right; lia]|now intros]. } intros v _.
  apply (tri_bind ok tt). { now apply tri_shr32. } intros x _.
  apply tri_set; [destruct HB; [auto|right; lia]|]. intros _. now rewrite upd_length.
Qed.

Lemma tri_bit_add mp l m n lr lv bit neg sub t res : shape c mp -> calm mp m n lr lv ->
  is_int (m_mode c) = true -> len res = lr -> tlen mp t ->
  tri ok (fun r => len r = lr) (bit_add c mp l m bit neg sub t res).
Proof.
  intros Hs HC Hint Hr Ht. unfold bit_add. apply tri_loop; auto. intros i r Hi Hr1.
  apply tri_loop; auto. intros s r2 Hsn Hr2.
  assert (HB : oob \/ (i * nsplit c + s < len t)%nat) by (eapply tlen_in; eauto).
  apply (tri_bind ok tt). { now apply tri_get. } intros x _.
  apply (tri_bind ok tt). { apply tri_get; [right; rewrite (sh_shift_len _ _ Hs); lia|now intros]. } intros sh _.
  apply (tri_bind ok tt). { apply tri_get; [right; rewrite (sh_step _ _ Hs); lia|now intros]. } intros o _.
  apply (tri_bind ok tt); [apply tri_use|]. intros stp _.
  apply (tri_bind ok tt); [apply tri_adc1|]. intros y _.
  assert (HB' : oob \/ (i < len r2)%nat) by (rewrite Hr2; bc HC).
  rewrite <- Hr2. destruct sub; [apply tri_res_fsub|apply tri_res_fadd]; auto.
Qed.

Definition bits_inv mp lr (s : list Z * list F * list Z) : Prop :=
  let '(r, t, v) := s in len r = lr /\ (par mp = None -> len t = rowsN c) /\ len v = colsN c.

Lemma tri_bit_loop mp l vd m n lr lv bits neg st : shape c mp -> calm mp m n lr lv ->
  is_int (m_mode c) = true -> len vd = colsN c -> bits_inv mp lr st ->
  tri ok (bits_inv mp lr) (bit_loop c mp l vd m n bits neg st).
Proof.
  intros Hs HC Hi Hv H0. unfold bit_loop. apply tri_loop; auto.
  intros b [[r t] v] Hb (Hr & Ht & Hvs).
  apply (tri_bind ok (fun s => len s = colsN c)).
  { apply tri_slice_vd; auto. destruct HC as [HC|(?&?&?&?&?&?&?)]; auto. }
  intros v' Hv'.
  apply (tri_bind ok (tlen mp)).
  { eapply tri_slice_currents; eauto. intros i j Hi' Hj.
    eapply tri_fterm; [apply Hs|apply Hs|]. rewrite Hv'. bc HC. }
  intros t' Ht'.
  apply (tri_bind ok (fun r => len r = lr)). { eapply tri_bit_add; eauto. }
  intros r' Hr'. cbn. repeat split; auto. intros Hn. rewrite fill_length. now apply Ht'.
Qed.

Definition amvm_post (mp : mapper) (lr : nat) (o : list Z * mapper) : Prop :=
  shape c (snd o) /\ keeps mp (snd o) /\ len (fst o) = lr.

Ltac keep_goal := constructor; reflexivity.
Ltac shp Hs := destruct Hs; constructor; cbn; auto; intros; try congruence;
  try match goal with
      | H : m_mode c = _ \/ m_mode c = _, Hi : is_int (m_mode c) = true |- _ =>
          exfalso; destruct H as [E|E]; rewrite E in Hi; discriminate Hi
      end.
Ltac fin Hs H := split; [cbn; shp Hs|split; [keep_goal|exact H]].

Lemma fill_fp mp : shape c mp -> is_int (m_mode c) = true ->
  par mp = None -> len (fill (tmp_fp mp) f0) = rowsN c.
Proof. intros Hs Hi Hn. rewrite fill_length. now apply Hs. Qed.

Lemma int_i_a_tri mp res vec mat m n l : shape c mp -> is_int (m_mode c) = true ->
  has_vdm (m_mode c) = true -> calm mp m n (len res) (len vec) ->
  tri ok (amvm_post mp (len res)) (int_i_a c mp res vec mat m n l).
Proof.
  intros Hs Hi Hv HC. unfold int_i_a.
  apply (tri_bind ok (fun '(a, b) => len a = colsN c /\ len b = colsN c)).
  { apply tri_split_pm; auto; [apply Hs|now apply Hs|]. bc HC. }
  intros [vp vm] [H1 H2].
  apply (tri_bind ok (bits_inv mp (len res))).
  { eapply tri_bit_loop; eauto. cbn; repeat split; auto. { intros; now apply fill_fp. } now apply Hs. }
  intros [[r1 t1] v1] HI1.
  apply (tri_bind ok (bits_inv mp (len res))). { eapply tri_bit_loop; eauto. }
  intros [[r2 t2] v2] (Hr & Ht & Hv2). fin Hs Hr.
Qed.

Lemma int_ii_a_tri mp res vec mat m n l : shape c mp -> is_int (m_mode c) = true ->
  calm mp m n (len res) (len vec) ->
  tri ok (amvm_post mp (len res)) (int_ii_a c mp res vec mat m n l).
Proof.
  intros Hs Hi HC. unfold int_ii_a.
  apply (tri_bind ok (fun v => len v = colsN c)).
  { rewrite <- (sh_vdp _ _ Hs). apply tri_load; [rewrite (sh_vdp _ _ Hs); bc HC|].
    intros v. apply (tri_bind ok tt); [now apply tri_shl32|]. intros; now apply tri_chk32. }
  intros vp H1.
  apply (tri_bind ok (bits_inv mp (len res))).
  { eapply tri_bit_loop; eauto. cbn; repeat split; auto. { intros; now apply fill_fp. } now apply Hs. }
  intros [[r1 t1] v1] (Hr & Ht & Hv1).
  apply (tri_bind ok (fun r => len r = len res)).
  { apply tri_loop; auto. intros i r Hi' Hri. apply (tri_bind ok tt).
    { apply tri_get; [rewrite (sh_sw _ _ Hs); bc HC|now intros]. }
    intros sw _. apply (tri_bind ok tt); [now apply tri_shl32|]. intros y _.
    rewrite <- Hri. apply tri_subto; auto. rewrite Hri. bc HC. }
  intros r2 Hr2. fin Hs Hr2.
Qed.

Lemma int_iii_a_tri mp res vec mat m n l : shape c mp -> is_int (m_mode c) = true ->
  calm mp m n (len res) (len vec) ->
  tri ok (amvm_post mp (len res)) (int_iii_a c mp res vec mat m n l).
Proof.
  intros Hs Hi HC. unfold int_iii_a.
  apply (tri_bind ok (fun v => len v = colsN c)).
  { rewrite <- (sh_vdp _ _ Hs). apply tri_load; [rewrite (sh_vdp _ _ Hs); bc HC|]. now intros. }
  intros vp H1.
  apply (tri_bind ok (bits_inv mp (len res))).
  { eapply tri_bit_loop; eauto. cbn; repeat split; auto. { intros; now apply fill_fp. } now apply Hs. }
  intros [[r1 t1] v1] (Hr & Ht & Hv1).
  apply (tri_bind ok (fun s => len s = colsN c)).
  { apply tri_slice_vd; auto. destruct HC as [HC|(?&?&?&?&?&?&?)]; auto. }
  intros v' Hv'.
  apply (tri_bind ok (tlen mp)).
  { eapply tri_slice_currents; eauto. intros i j Hi' Hj.
    eapply tri_fterm; [apply Hs|apply Hs|]. rewrite Hv'. bc HC. }
  intros t' Ht'.
  apply (tri_bind ok (fun r => len r = len res)). { eapply tri_bit_add; eauto. }
  destruct Ht' as [Ht' _]. intros r2 Hr2. fin Hs Hr2.
Qed.

Lemma int_iv_a_tri mp res vec mat m n l : shape c mp -> is_int (m_mode c) = true ->
  calm mp m n (len res) (len vec) ->
  tri ok (amvm_post mp (len res)) (int_iv_a c mp res vec mat m n l).
Proof.
  intros Hs Hi HC. unfold int_iv_a.
  apply (tri_bind ok (fun v => len v = colsN c)).
  { rewrite <- (sh_vdp _ _ Hs). apply tri_load; [rewrite (sh_vdp _ _ Hs); bc HC|]. now intros. }
  intros vp H1.
  apply (tri_bind ok (bits_inv mp (len res))).
  { eapply tri_bit_loop; eauto. cbn; repeat split; auto. { intros; now apply fill_fp. } now apply Hs. }
  intros [[r1 t1] v1] (Hr & Ht & Hv1). fin Hs Hr.
Qed.

Lemma tri_sum64' vec n lr m mp : calm mp m n lr (len vec) -> tri ok tt (sum64 vec n).
Proof. intros HC. apply tri_sum64; auto. bc HC. Qed.

Lemma int_v_a_tri mp res vec mat m n l : shape c mp -> m_mode c = I_UINT_W_OFFS ->
  calm mp m n (len res) (len vec) ->
  tri ok (amvm_post mp (len res)) (int_v_a c mp res vec mat m n l).
Proof.
  intros Hs Em HC. assert (Hi : is_int (m_mode c) = true) by now rewrite Em.
  pose proof (sh_rfp _ _ Hs Em) as Hrf0. unfold int_v_a.
  apply (tri_bind ok (fun v => len v = colsN c)).
  { rewrite <- (sh_vdp _ _ Hs). apply tri_load; [rewrite (sh_vdp _ _ Hs); bc HC|]. now intros. }
  intros vp H1. apply (tri_bind ok tt). { eapply tri_sum64'; eauto. } intros isum _.
  apply (tri_bind ok (fun '(rf, t, v) => len rf = rowsN c /\ (par mp = None -> len t = rowsN c) /\
                        len (v : list Z) = colsN c)).
  { apply tri_loop. { repeat split; [now rewrite fill_length|intros; now apply fill_fp|now apply Hs]. }
    intros b [[rf t] v] Hb (Hrf & Ht & Hv).
    apply (tri_bind ok (fun s => len s = colsN c)).
    { apply tri_slice_vd; auto. destruct HC as [HC|(?&?&?&?&?&?&?)]; auto. }
    intros v' Hv'.
    apply (tri_bind ok (tlen mp)).
    { eapply tri_slice_currents; eauto. intros i j Hi' Hj.
      eapply tri_fterm1; [apply Hs|]. rewrite Hv'. bc HC. }
    intros t' Ht'.
    apply (tri_bind ok (fun r => len r = rowsN c)).
    { apply tri_loop; auto. intros i r Hi' Hr. apply tri_loop; auto. intros s r2 Hsn Hr2.
      assert (HB : oob \/ (i * nsplit c + s < len t')%nat) by (eapply tlen_in; eauto).
      apply (tri_bind ok tt). { now apply tri_get. } intros x _.
      apply (tri_bind ok tt). { apply tri_get; [right; rewrite (sh_shift_len _ _ Hs); lia|now intros]. } intros sh _.
      apply (tri_bind ok tt). { apply tri_get; [right; rewrite (sh_step _ _ Hs); lia|now intros]. } intros o _.
      apply (tri_bind ok tt); [apply tri_use|]. intros stp _.
      apply (tri_bind ok tt); [apply tri_adc1|]. intros y _.
      rewrite <- Hr2. apply tri_faddto; auto. rewrite Hr2. bc HC. }
    intros rf' Hrf'. cbn. repeat split; auto. intros Hn. rewrite fill_length. now apply Ht'. }
  intros [[rf t] v] (Hrf & Ht & Hv).
  apply (tri_bind ok (fun '(r, rf) => len r = len res /\ len (rf : list F) = rowsN c)).
  { apply tri_loop; auto. intros i [r rf1] Hi' [Hr Hrf1].
    apply (tri_bind ok tt); [apply tri_use|]. intros d _.
    apply (tri_bind ok tt); [now apply tri_shl32|]. intros o _.
    apply (tri_bind ok (fun rf => len rf = rowsN c)).
    { rewrite <- Hrf1. apply tri_fsubto; auto. rewrite Hrf1. bc HC. }
    intros rf2 Hrf2. apply (tri_bind ok tt). { apply tri_get; [rewrite Hrf2; bc HC|now intros]. }
    intros x _. apply (tri_bind ok tt); [now apply tri_f2i|]. intros y _.
    apply (tri_bind ok (fun r => len r = len res)).
    { rewrite <- Hr. apply tri_addto; auto. rewrite Hr. bc HC. }
    intros r' Hr'. cbn. auto. }
  intros [r2 rf2] [Hr2 Hrf2]. fin Hs Hr2.
Qed.

(** ** Binary and ternary modes *)
Definition plain (md : mode) : bool :=
  match md with BNN_I | BNN_II | BNN_III | BNN_IV | TNN_II | TNN_III => true | _ => false end.
Lemma plain_int : plain (m_mode c) = true -> is_int (m_mode c) = false.
Proof. destruct (m_mode c); auto; discriminate. Qed.
Lemma plain_outs m : plain (m_mode c) = true -> outs m = m.
Proof. unfold outs. destruct (m_mode c); auto; discriminate. Qed.
Lemma plain_in {P : Prop} : plain (m_mode c) = true -> ienc_double (m_mode c) = true -> P.
Proof. destruct (m_mode c); discriminate. Qed.
Lemma double_outs m : ienc_double (m_mode c) = true -> outs m = m.
Proof. unfold outs. destruct (m_mode c); auto; discriminate. Qed.
Lemma double_int : ienc_double (m_mode c) = true -> is_int (m_mode c) = false.
Proof. destruct (m_mode c); auto; discriminate. Qed.
Lemma double_vdm : ienc_double (m_mode c) = true -> has_vdm (m_mode c) = true.
Proof. destruct (m_mode c); auto; discriminate. Qed.
Definition avm_post (mp : mapper) (lr : nat) (e : env) (o : list Z * mapper * env) : Prop :=
  let '(r, mp', e') := o in
  shape c mp' /\ keeps mp mp' /\ len r = lr /\ draws e' = draws e /\
  (adc_profile c = false -> e' = e).

Notation epost t e := (fun '(t', e') => len t' = t /\ draws e' = draws e /\ (adc_profile c = false -> e' = e)).
Lemma tri_conv mp l m n lr lv t s o e L : calm mp m n lr lv -> len t = L ->
  tri ok (epost L e) (adc_vec c (mp_adc mp) l m t s o e).
Proof. intros HC <-. apply tri_adc_vec. eapply calm_prof; eauto. Qed.

Ltac fin2 Hs H He1 He2 := split; [cbn; shp Hs|split; [keep_goal|split; [exact H|split; [exact He1|exact He2]]]].

Lemma bnn_i_a_tri mp res vec mat m n l e : shape c mp -> plain (m_mode c) = true ->
  calm mp m n (len res) (len vec) ->
  tri ok (avm_post mp (len res) e) (bnn_i_a c mp res vec mat m n l e).
Proof.
  intros Hs Hpl HC. pose proof (plain_int Hpl) as Hi. unfold bnn_i_a.
  apply (tri_bind ok (fun v => len v = colsN c)).
  { rewrite <- (sh_vdp _ _ Hs). apply tri_load; [rewrite (sh_vdp _ _ Hs); bc HC|]. intros; now apply tri_enc_i. }
  intros vp H1.
  apply (tri_bind ok (fun t' => len t' = MM c)).
  { eapply tri_currents; eauto using plain_outs; try exact (plain_in Hpl). { rewrite fill_length. now apply Hs. }
    intros i j Hi' Hj. eapply tri_fterm; [apply Hs|apply Hs|]. rewrite H1. bc HC. }
  intros t Ht. apply (tri_bind ok tt); [apply tri_inv_imm|]. intros sc _.
  apply (tri_bind ok (epost (MM c) e)). { eapply tri_conv; eauto. }
  intros [t' e'] (Ht' & He1 & He2).
  apply (tri_bind ok (fun r => len r = len res)).
  { apply tri_loop; auto. intros i r Hi' Hri.
    apply (tri_bind ok tt). { apply tri_get; [rewrite Ht'; bc HC|now intros]. } intros x _.
    apply (tri_bind ok tt). { apply tri_get; [rewrite (sh_sw _ _ Hs); bc HC|now intros]. } intros sw _.
    rewrite <- Hri. apply tri_res_fadd; auto. rewrite Hri. bc HC. }
  intros r2 Hr2. fin2 Hs Hr2 He1 He2.
Qed.
Lemma bnn_ii_a_tri mp res vec mat m n l e : shape c mp -> plain (m_mode c) = true ->
  calm mp m n (len res) (len vec) ->
  tri ok (avm_post mp (len res) e) (bnn_ii_a c mp res vec mat m n l e).
Proof.
  intros Hs Hpl HC. pose proof (plain_int Hpl) as Hi. unfold bnn_ii_a.
  apply (tri_bind ok (fun v => len v = colsN c)).
  { rewrite <- (sh_vdp _ _ Hs). apply tri_load; [rewrite (sh_vdp _ _ Hs); bc HC|]. intros; now apply tri_enc_ii. }
  intros vp H1.
  apply (tri_bind ok (fun t' => len t' = MM c)).
  { eapply tri_currents; eauto using plain_outs; try exact (plain_in Hpl). { rewrite fill_length. now apply Hs. }
    intros i j Hi' Hj. eapply tri_fterm; [apply Hs|apply Hs|]. rewrite H1. bc HC. }
  intros t Ht. apply (tri_bind ok tt); [apply tri_inv_imm|]. intros sc _.
  apply (tri_bind ok (epost (MM c) e)). { eapply tri_conv; eauto. }
  intros [t' e'] (Ht' & He1 & He2).
  apply (tri_bind ok (fun r => len r = len res)).
  { apply tri_loop; auto. intros i r Hi' Hri.
    apply (tri_bind ok tt). { apply tri_get; [rewrite Ht'; bc HC|now intros]. } intros x _.
    apply (tri_bind ok tt). { apply tri_get; [rewrite (sh_sw _ _ Hs); bc HC|now intros]. } intros sw _.
    rewrite <- Hri. apply tri_res_fadd; auto. rewrite Hri. bc HC. }
  intros r2 Hr2. fin2 Hs Hr2 He1 He2.
Qed.

Lemma bnn_iii_iv_a_tri inv mp res vec mat m n l e : shape c mp ->
  m_mode c = BNN_III \/ m_mode c = BNN_IV -> calm mp m n (len res) (len vec) ->
  tri ok (avm_post mp (len res) e) (bnn_iii_iv_a inv c mp res vec mat m n l e).
Proof.
  intros Hs Hm HC. destruct (sh_tpm _ _ Hs Hm) as [Htp Htm].
  assert (Hi : is_int (m_mode c) = false) by (destruct Hm as [E|E]; now rewrite E).
  assert (Hv : has_vdm (m_mode c) = true) by (destruct Hm as [E|E]; now rewrite E).
  assert (Hpl : plain (m_mode c) = true) by (destruct Hm as [E|E]; now rewrite E).
  unfold bnn_iii_iv_a.
  apply (tri_bind ok (fun '(a, b, _) => len a = colsN c /\ len b = colsN c)).
  { apply tri_two_rail_sum; auto; [apply Hs|now apply Hs|]. bc HC. }
  intros [[vp vm] sm] [H1 H2].
  apply (tri_bind ok (fun t' => len t' = MM c)).
  { eapply tri_currents; eauto using plain_outs; try exact (plain_in Hpl). { now rewrite fill_length. }
    intros i j Hi' Hj. eapply tri_fterm1; [apply Hs|]. rewrite H1. bc HC. }
  intros tp Htp'.
  apply (tri_bind ok (fun t' => len t' = MM c)).
  { eapply tri_currents; eauto using plain_outs; try exact (plain_in Hpl). { now rewrite fill_length. }
    intros i j Hi' Hj. eapply tri_fterm1; [apply Hs|]. rewrite H2. bc HC. }
  intros tm Htm'. apply (tri_bind ok tt); [apply tri_inv_imm|]. intros sc _.
  apply (tri_bind ok tt); [now apply tri_chk32|]. intros nsm _.
  apply (tri_bind ok (epost (MM c) e)). { eapply tri_conv; eauto. }
  intros [t1 e1] (Ht1 & He1 & He1').
  apply (tri_bind ok (epost (MM c) e1)). { eapply tri_conv; eauto. }
  intros [t2 e2] (Ht2 & He2 & He2').
  apply (tri_bind ok (fun r => len r = len res)).
  { apply tri_loop; auto. intros i r Hi' Hri.
    apply (tri_bind ok tt). { apply tri_get; [rewrite Ht1; bc HC|now intros]. } intros x _.
    apply (tri_bind ok tt). { apply tri_get; [rewrite Ht2; bc HC|now intros]. } intros y _.
    rewrite <- Hri. apply tri_res_fadd; auto. rewrite Hri. bc HC. }
  intros r2 Hr2. rewrite He1 in He2.
  assert (He3 : adc_profile c = false -> e2 = e) by (intros E; rewrite He2', He1'; auto).
  split; [|split; [keep_goal|auto]]. cbn. destruct Hs; constructor; cbn; auto.
  intros. now rewrite fill_length, sh_tmp.
Qed.

Lemma bnn_v_a_tri mp res vec mat m n l e : shape c mp -> ienc_double (m_mode c) = true -> calm mp m n (len res) (len vec) ->
  tri ok (avm_post mp (len res) e) (bnn_v_a c mp res vec mat m n l e).
Proof.
  intros Hs Hpl HC. pose proof (double_int Hpl) as Hi. pose proof (double_vdm Hpl) as Hv. unfold bnn_v_a.
  apply (tri_bind ok (fun '(a, b) => len a = colsN c /\ len b = colsN c)).
  { apply tri_two_rail; auto; [apply Hs|now apply Hs|]. bc HC. }
  intros [vp vm] [H1 H2].
  apply (tri_bind ok (fun t' => len t' = MM c)).
  { eapply tri_currents; eauto using double_outs. { rewrite fill_length. now apply Hs. }
    intros i j Hi' Hj.
    apply (tri_bind ok tt). { eapply tri_fterm1; [apply Hs|]. rewrite H1. bc HC. } intros x _.
    apply (tri_bind ok tt). { eapply tri_fterm1; [apply Hs|]. rewrite H2. bc HC. } now intros. }
  intros t Ht. apply (tri_bind ok tt); [apply tri_inv_imm|]. intros sc _.
  apply (tri_bind ok (epost (MM c) e)). { eapply tri_conv; eauto. }
  intros [t' e'] (Ht' & He1 & He2).
  apply (tri_bind ok (fun r => len r = len res)).
  { apply tri_loop; auto. intros i r Hi' Hri.
    apply (tri_bind ok tt). { apply tri_get; [rewrite Ht'; bc HC|now intros]. } intros x _.
    rewrite <- Hri. apply tri_res_fadd; auto. rewrite Hri. bc HC. }
  intros r2 Hr2. fin2 Hs Hr2 He1 He2.
Qed.

Lemma quad_a_tri tern mp res vec mat m n l e : shape c mp -> ienc_double (m_mode c) = true -> calm mp m n (len res) (len vec) ->
  tri ok (avm_post mp (len res) e) (quad_a tern c mp res vec mat m n l e).
Proof.
  intros Hs Hpl HC. pose proof (double_int Hpl) as Hi. pose proof (double_vdm Hpl) as Hv. unfold quad_a.
  apply (tri_bind ok (fun '(a, b) => len a = colsN c /\ len b = colsN c)).
  { apply tri_two_rail; auto; [apply Hs|now apply Hs|]. bc HC. }
  intros [vp vm] [H1 H2].
  apply (tri_bind ok (fun t' => len t' = MM c)).
  { eapply tri_currents; eauto using double_outs. { rewrite fill_length. now apply Hs. }
    intros i j Hi' Hj. unfold fquad.
    apply (tri_bind ok tt). { eapply tri_fterm1; [apply Hs|]. rewrite H1. bc HC. } intros x1 _.
    apply (tri_bind ok tt). { eapply tri_fterm1; [apply Hs|]. rewrite H2. bc HC. } intros x2 _.
    apply (tri_bind ok tt). { eapply tri_fterm1; [apply Hs|]. rewrite H1. bc HC. } intros x3 _.
    apply (tri_bind ok tt). { eapply tri_fterm1; [apply Hs|]. rewrite H2. bc HC. } now intros. }
  intros t Ht. apply (tri_bind ok tt); [apply tri_inv_imm|]. intros sc _.
  apply (tri_bind ok (epost (MM c) e)). { eapply tri_conv; eauto. }
  intros [t' e'] (Ht' & He1 & He2).
  apply (tri_bind ok (fun r => len r = len res)).
  { apply tri_loop; auto. intros i r Hi' Hri.
    apply (tri_bind ok tt). { apply tri_get; [rewrite Ht'; bc HC|now intros]. } intros x _.
    rewrite <- Hri. apply tri_res_fadd; auto. rewrite Hri. bc HC. }
  intros r2 Hr2. fin2 Hs Hr2 He1 He2.
Qed.

Lemma tri_tnn_slice mp v m n lr lv l k sub t res e : plain (m_mode c) = true -> shape c mp -> calm mp m n lr lv ->
  len v = colsN c -> len t = MM c -> len res = lr ->
  tri ok (fun '(r, t', e') => len (r : list Z) = lr /\ len (t' : list F) = MM c /\
            draws e' = draws e /\ (adc_profile c = false -> e' = e))
    (tnn_slice c mp v m n l k sub t res e).
Proof.
  intros Hpl Hs HC Hv Ht Hr. unfold tnn_slice.
  apply (tri_bind ok (fun t' => len t' = MM c)).
  { eapply tri_currents; eauto using plain_outs; try exact (plain_in Hpl). { now rewrite fill_length. }
    intros i j Hi' Hj. eapply tri_fterm; [apply Hs|apply Hs|]. rewrite Hv. bc HC. }
  intros t1 Ht1. apply (tri_bind ok tt); [apply tri_inv_imm|]. intros sc _.
  apply (tri_bind ok (epost (MM c) e)). { eapply tri_conv; eauto. }
  intros [t' e'] (Ht' & He1 & He2).
  apply (tri_bind ok (fun r => len r = lr)).
  { apply tri_loop; auto. intros i r Hi' Hri.
    apply (tri_bind ok tt). { apply tri_get; [rewrite Ht'; bc HC|now intros]. } intros x _.
    assert (HB : oob \/ (i < len r)%nat) by (rewrite Hri; bc HC).
    rewrite <- Hri. destruct sub; [apply tri_res_fsub|apply tri_res_fadd]; auto. }
  intros r2 Hr2. cbn. auto.
Qed.

Lemma tnn_ii_a_tri mp res vec mat m n l e : shape c mp -> plain (m_mode c) = true ->
  calm mp m n (len res) (len vec) ->
  tri ok (avm_post mp (len res) e) (tnn_ii_a c mp res vec mat m n l e).
Proof.
  intros Hs Hpl HC. pose proof (plain_int Hpl) as Hi. unfold tnn_ii_a.
  apply (tri_bind ok (fun v => len v = colsN c)).
  { rewrite <- (sh_vdp _ _ Hs). apply tri_load; [rewrite (sh_vdp _ _ Hs); bc HC|]. now intros. }
  intros v0 H0. eapply (tri_bind ok). { eapply tri_tnn_slice; eauto. now apply Hs. }
  intros [[r1 t1] e1] (Hr1 & Ht1 & He1 & He1').
  apply (tri_bind ok (fun v => len v = colsN c)).
  { rewrite <- H0. apply tri_load; [rewrite H0; bc HC|]. now intros. }
  intros v1 H1. eapply (tri_bind ok). { eapply tri_tnn_slice; eauto. }
  intros [[r2 t2] e2] (Hr2 & Ht2 & He2 & He2'). rewrite He1 in He2.
  assert (He3 : adc_profile c = false -> e2 = e) by (intros E; rewrite He2', He1'; auto).
  fin2 Hs Hr2 He2 He3.
Qed.
Lemma tnn_iii_a_tri mp res vec mat m n l e : shape c mp -> plain (m_mode c) = true ->
  calm mp m n (len res) (len vec) ->
  tri ok (avm_post mp (len res) e) (tnn_iii_a c mp res vec mat m n l e).
Proof.
  intros Hs Hpl HC. pose proof (plain_int Hpl) as Hi. unfold tnn_iii_a.
  apply (tri_bind ok (fun v => len v = colsN c)).
  { rewrite <- (sh_vdp _ _ Hs). apply tri_load; [rewrite (sh_vdp _ _ Hs); bc HC|].
    intros; apply (tri_bind ok tt); [now apply tri_chk32|]; now intros. }
  intros v0 H0. eapply (tri_bind ok). { eapply tri_tnn_slice; eauto. now apply Hs. }
  intros [[r1 t1] e1] (Hr1 & Ht1 & He1 & He1').
  apply (tri_bind ok (fun v => len v = colsN c)).
  { rewrite <- H0. apply tri_load; [rewrite H0; bc HC|].
    intros; apply (tri_bind ok tt); [now apply tri_chk32|]; now intros. }
  intros v1 H1. eapply (tri_bind ok). { eapply tri_tnn_slice; eauto. }
  intros [[r2 t2] e2] (Hr2 & Ht2 & He2 & He2'). rewrite He1 in He2.
  assert (He3 : adc_profile c = false -> e2 = e) by (intros E; rewrite He2', He1'; auto).
  apply (tri_bind ok (fun r => len r = len res)).
  { apply tri_loop; auto. intros i r Hi' Hri. apply (tri_bind ok tt).
    { apply tri_get; [rewrite (sh_sw _ _ Hs); bc HC|now intros]. }
    intros sw _. rewrite <- Hri. apply tri_subto; auto. rewrite Hri. bc HC. }
  intros r3 Hr3. fin2 Hs Hr3 He2 He3.
Qed.

Lemma tri_tc_pass mp ia v m n lr lv l k off sub t fp e : shape c mp -> calm mp m n lr lv ->
  wf2 (rowsN c) (colsN c) ia -> len v = colsN c -> any \/ len t = MM c -> len fp = MM c ->
  tri ok (fun '(t', fp', e') => (any \/ len t' = MM c) /\ len (fp' : list F) = MM c /\
     draws e' = draws e /\ (adc_profile c = false -> e' = e) /\ len (t' : list F) = len t)
    (tc_pass c mp ia v m n l k off sub t fp e).
Proof.
  intros Hs HC Hia Hv Ht Hfp. unfold tc_pass.
  apply (tri_bind ok (fun t' => len t' = len t)).
  { rewrite <- (fill_length t f0). apply tri_facc2; auto.
    - rewrite fill_length. destruct Ht as [Ht|Ht]; [left; apply Ht|rewrite Ht; bc HC].
    - intros i j Hi' Hj. eapply tri_fterm1; eauto. rewrite Hv. bc HC. }
  intros t1 Ht1. apply (tri_bind ok tt); [apply tri_inv_imm|]. intros sc _.
  apply (tri_bind ok (epost (len t) e)). { eapply tri_conv; eauto. }
  intros [t' e'] (Ht' & He1 & He2).
  apply (tri_bind ok (fun r => len r = MM c)).
  { apply tri_loop; auto. intros i r Hi' Hri.
    apply (tri_bind ok tt). { apply tri_get; [rewrite Ht'; destruct Ht as [Ht|Ht]; [left; apply Ht|rewrite Ht; bc HC]|now intros]. } intros x _.
    assert (HB : oob \/ (i < len r)%nat) by (rewrite Hri; bc HC).
    rewrite <- Hri. destruct sub; [apply tri_fsubto|apply tri_faddto]; auto. }
  intros r2 Hr2. cbn. repeat split; auto. destruct Ht; [auto|right; congruence].
Qed.

Lemma tri_tc_pass_par mp v m n l off subl subm lsb msb fp e : shape c mp -> (m_mode c = TNN_IV \/ m_mode c = TNN_V) -> parasitics c = true -> forall lr lv, calm mp m n lr lv ->
  len v = colsN c -> len lsb = MM c -> len msb = MM c -> len fp = MM c ->
  tri ok (fun '(t, a, b, f, e') => len (t : list F) = MM c /\ len (a : list F) = MM c /\
      len (b : list F) = MM c /\ len (f : list F) = MM c /\
      draws e' = draws e /\ (adc_profile c = false -> e' = e))
    (tc_pass_par c mp v m n l off subl subm lsb msb fp e).
Proof.
  intros Hs Hmd Ep lr lv HC Hv Hl Hm Hf. unfold tc_pass_par.
  assert (Eo : outs m = (2 * m)%nat) by (unfold outs; destruct Hmd as [-> | ->]; reflexivity).
  assert (HM : oob \/ (2 * m <= MM c)%nat).
  { destruct HC as [HC|(?&?&?&?&?&HP&?)]; [left; apply HC|right]. destruct HP as [[? _]|(_ & p & K & _ & _ & _ & Ho & _)]; [congruence|lia]. }
  apply (tri_bind ok (fun t => len t = MM c)).
  { destruct HC as [HC|(?&?&?&?&?&HP&?)].
    - apply tri_all; auto. intros t Ht. eapply compute_currents_len; eauto.
    - destruct (psafe_ok mp m n v [] Hs HP Ep) as (t & E & Ht & _); auto.
      { destruct Hmd as [-> | ->]; discriminate. } rewrite Eo in E. rewrite E. exact Ht. }
  intros t Ht. apply (tri_bind ok (fun '(a, b) => len a = MM c /\ len b = MM c)).
  { apply tri_loop; auto. intros i [a b] Hi [Ha1 Hb1].
    apply (tri_bind ok tt). { apply tri_get; [destruct HM; [auto|right; lia]|now intros]. } intros x _.
    apply (tri_bind ok (fun l => len l = MM c)). { apply tri_set; [destruct HM; [auto|right; lia]|]. intros; now rewrite upd_length. }
    intros a' Ha'.
    apply (tri_bind ok tt). { apply tri_get; [destruct HM; [auto|right; lia]|now intros]. } intros y _.
    apply (tri_bind ok (fun l => len l = MM c)). { apply tri_set; [destruct HM; [auto|right; lia]|]. intros; now rewrite upd_length. }
    intros b' Hb'. cbn; auto. }
  intros [a b] [Ha1 Hb1].
  apply (tri_bind ok tt); [apply tri_inv_imm|]. intros s1 _.
  apply (tri_bind ok (epost (MM c) e)). { rewrite <- Ha1. apply tri_adc_vec. eapply calm_prof; eauto. }
  intros [a1 e1] (Ha2 & He1 & He1').
  apply (tri_bind ok tt); [apply tri_inv_imm|]. intros s2 _.
  apply (tri_bind ok (epost (MM c) e1)). { rewrite <- Hb1. apply tri_adc_vec. eapply calm_prof; eauto. }
  intros [b1 e2] (Hb2 & He2 & He2').
  apply (tri_bind ok (fun l => len l = MM c)).
  { apply tri_loop; auto. intros i f Hi Hf1.
    apply (tri_bind ok tt). { apply tri_get; [destruct HM; [auto|right; lia]|now intros]. } intros x _.
    apply (tri_bind ok (fun l => len l = MM c)).
    { assert (oob \/ (i < len f)%nat) by (destruct HM; [auto|right; lia]). rewrite <- Hf1. destruct subl; [apply tri_fsubto|apply tri_faddto]; auto. }
    intros f1 Hf2. apply (tri_bind ok tt). { apply tri_get; [destruct HM; [auto|right; lia]|now intros]. } intros y _.
    assert (oob \/ (i < len f1)%nat) by (destruct HM; [auto|right; lia]). rewrite <- Hf2. destruct subm; [apply tri_fsubto|apply tri_faddto]; auto. }
  intros f2 Hf2. cbn. rewrite He1 in He2. repeat split; auto. intros E. rewrite He2', He1'; auto.
Qed.

Lemma tnn_tc_a_tri v mp res vec mat m n l e : shape c mp ->
  m_mode c = TNN_IV \/ m_mode c = TNN_V -> calm mp m n (len res) (len vec) ->
  tri ok (avm_post mp (len res) e) (tnn_tc_a v c mp res vec mat m n l e).
Proof.
  intros Hs Hm HC. destruct (sh_tlm _ _ Hs Hm) as (Hl & Hmb & Hf).
  assert (Hi : is_int (m_mode c) = false) by (destruct Hm as [E|E]; now rewrite E).
  assert (Hvd : has_vdm (m_mode c) = true) by (destruct Hm as [E|E]; now rewrite E).
  unfold tnn_tc_a. destruct (split11 _); [|apply HL].
  apply (tri_bind ok tt). { eapply tri_sum64'; eauto. } intros isum _.
  apply (tri_bind ok (fun '(a, b) => len a = colsN c /\ len b = colsN c)).
  { apply tri_two_rail; auto; [apply Hs|now apply Hs|]. bc HC. }
  intros [vp vm] [H1 H2].
  apply (tri_bind ok tt). { destruct v; [now apply tri_chk64|exact I]. } intros i3 _.
  assert (Hff : len (fill (tmp_fp mp) f0) = MM c) by now rewrite fill_length.
  apply (tri_bind ok (fun '(t, a, b, f, e') => len (t : list F) = MM c /\ len (a : list F) = MM c /\
      len (b : list F) = MM c /\ len (f : list F) = MM c /\
      draws e' = draws e /\ (adc_profile c = false -> e' = e))).
  { destruct (parasitics c) eqn:Ep.
    -
      eapply (tri_bind ok). { eapply tri_tc_pass_par; eauto. }
      intros [[[[t1 a1] b1] f1] e1] (Ht1 & Ha1 & Hb1 & Hf1 & He1 & He1').
      eapply tri_weaken. { eapply tri_tc_pass_par with (v := vm); eauto. }
      intros [[[[t2 a2] b2] f2] e2] (Ht2 & Ha2 & Hb2 & Hf2 & He2 & He2').
      rewrite He1 in He2. repeat split; auto. intros E. rewrite He2', He1'; auto.
    - pose proof (sh_tmp _ _ Hs Hi) as Htm.
      eapply (tri_bind ok). { eapply tri_tc_pass; eauto. apply Hs. }
      intros [[t1 f1] e1] (Ht1 & Hf1 & He1 & He1' & Hl1).
      eapply (tri_bind ok). { eapply tri_tc_pass with (v := vm); eauto. apply Hs. }
      intros [[t2 f2] e2] (Ht2 & Hf2 & He2 & He2' & Hl2).
      eapply (tri_bind ok). { eapply tri_tc_pass; eauto. apply Hs. }
      intros [[t3 f3] e3] (Ht3 & Hf3 & He3 & He3' & Hl3).
      eapply (tri_bind ok). { eapply tri_tc_pass with (v := vm); eauto. apply Hs. }
      intros [[t4 f4] e4] (Ht4 & Hf4 & He4 & He4' & Hl4).
      cbn. repeat split; auto; try congruence.
      intros E. rewrite He4', He3', He2', He1'; auto. }
  intros [[[[t a] b] f] e'] (Ht & Ha1 & Hb1 & Hf1 & He1 & He1').
  apply (tri_bind ok (fun r => len r = len res)).
  { apply tri_loop; auto. intros i r Hi' Hri.
    apply (tri_bind ok tt). { apply tri_get; [rewrite Hf1; bc HC|now intros]. } intros x _.
    apply (tri_bind ok (fun r => len r = len res)).
    { rewrite <- Hri. apply tri_res_fadd; auto. rewrite Hri. bc HC. }
    intros r' Hr'. destruct v; [|exact Hr']. rewrite <- Hr'. apply tri_subto64; auto. rewrite Hr'. bc HC. }
  intros r2 Hr2. fin2 Hs Hr2 He1 He1'.
Qed.

Lemma a_mvm_tri mp res vec mat m n l e : shape c mp ->
  calm mp m n (len res) (len vec) ->
  tri ok (avm_post mp (len res) e) (a_mvm c mp res vec mat m n l e).
Proof.
  intros Hs HC. unfold a_mvm. rewrite (sh_mode _ _ Hs).
  assert (Hp : forall x, tri ok (amvm_post mp (len res)) x ->
     tri ok (avm_post mp (len res) e) ('(r, mp') <- x ;; Ok (r, mp', e))).
  { intros x Hx. apply (tri_bind ok _ _ _ _ Hx). intros [r mp'] (Ha & Hb & Hc). cbn. auto. }
  destruct (m_mode c) eqn:Em.
  1-2: apply Hp, int_i_a_tri; auto; now rewrite Em.
  1: apply Hp, int_ii_a_tri; auto; now rewrite Em.
  1: apply Hp, int_iii_a_tri; auto; now rewrite Em.
  1: apply Hp, int_iv_a_tri; auto; now rewrite Em.
  1: apply Hp, int_v_a_tri; auto; now rewrite Em.
  - apply bnn_i_a_tri; auto; now rewrite Em.
  - apply bnn_ii_a_tri; auto; now rewrite Em.
  - apply bnn_iii_iv_a_tri; auto; rewrite Em; auto.
  - apply bnn_iii_iv_a_tri; auto; rewrite Em; auto.
  - apply bnn_v_a_tri; auto; now rewrite Em.
  - apply quad_a_tri; auto; now rewrite Em.
  - apply quad_a_tri; auto; now rewrite Em.
  - apply tnn_ii_a_tri; auto; now rewrite Em.
  - apply tnn_iii_a_tri; auto; now rewrite Em.
  - apply tnn_tc_a_tri; auto; rewrite Em; auto.
  - apply tnn_tc_a_tri; auto; rewrite Em; auto.
Qed.

(** ** Analog writes *)
Lemma tri_add_noise x k e : tri ok tt (add_noise c x k e).
Proof.
  unfold add_noise. destruct (k =? 0); [destruct (fle _ _); exact I|].
  destruct (k =? 1); [destruct (fle _ _); exact I|apply HL].
Qed.

Notation mok := (wf2 (rowsN c) (colsN c)).

(** What an analog write relies on to stay in bounds. *)
Definition wpsafe (mp : mapper) (m n : nat) : Prop :=
  parasitics c = false \/
  (par mp <> None /\ m_mode c <> I_TC_W_DIFF /\ (1 <= MM c)%nat /\ (1 <= colsN c)%nat /\
   (ienc_double (m_mode c) = true -> 2 * n <= colsN c \/ m = 0)%nat).
Definition wcalm (mp : mapper) (m n : nat) : Prop :=
  any \/ ((m <= MM c)%nat /\ (n <= colsN c)%nat /\ (1 <= nsplit c)%nat /\ wpsafe mp m n).
Ltac bw HC := destruct HC as [HC|(?&?&?&?)]; [left; apply HC|right; unfold rowsN in *; try nia].

Lemma a_write_int_tri both mp m n : shape c mp -> is_int (m_mode c) = true -> wcalm mp m n ->
  tri ok (fun mp' => shape c mp' /\ same_but_analog mp mp' /\ par mp' = par mp)
    (a_write_int c both mp m n).
Proof.
  intros Hs Hi HC. unfold a_write_int.
  assert (Hn : nseg mp = nsplit c).
  { rewrite (sh_nseg _ _ Hs). unfold uses_shift. now rewrite Hi. }
  rewrite Hn.
  apply (tri_bind ok (fun '(a, b) => mok a /\ mok b)).
  { apply tri_loop. { split; apply Hs. } intros i st Hi' Hst.
    apply (tri_bind ok tt).
    { apply tri_get; [right; rewrite (sh_step _ _ Hs); apply Nat.mod_upper_bound; nia|now intros]. }
    intros o _. apply tri_loop; auto. intros j [a b] Hj [Ha Hb].
    apply (tri_bind ok tt); [apply tri_use|]. intros stp _.
    assert (HB : oob \/ ((i < rowsN c)%nat /\ (j < colsN c)%nat)) by bw HC.
    apply (tri_bind ok tt). { eapply tri_get2; [apply Hs|auto|now intros]. } intros g _.
    apply (tri_bind ok mok). { now apply tri_set2. } intros a' Ha'.
    destruct both; [|now cbn].
    apply (tri_bind ok tt). { eapply tri_get2; [apply Hs|auto|now intros]. } intros h _.
    apply (tri_bind ok mok). { now apply tri_set2. } intros b' Hb'. now cbn. }
  intros [a b] [Ha Hb]. split; [|split].
  - cbn. shp Hs.
  - exists a, b, (ia_p0 mp), (ia_m0 mp), (par mp). now destruct mp.
  - reflexivity.
Qed.

Lemma tri_put_noisy gd i j ia ia0 k : mok gd -> mok ia -> mok ia0 ->
  oob \/ ((i < rowsN c)%nat /\ (j < colsN c)%nat) ->
  tri ok (fun '(a, b, _) => mok a /\ mok b) (put_noisy c gd i j (ia, ia0, k)).
Proof.
  intros Hg Ha Hb HB. unfold put_noisy.
  apply (tri_bind ok tt). { eapply tri_get2; eauto. now intros. } intros g _.
  apply (tri_bind ok tt). { apply tri_add_noise. } intros [x k'] _.
  apply (tri_bind ok mok). { now apply tri_set2. } intros a' Ha'.
  apply (tri_bind ok mok). { now apply tri_set2. } intros b' Hb'. now cbn.
Qed.

Lemma a_write_xnn_tri both mp m n e : shape c mp -> (1 <= nsplit c)%nat -> wcalm mp m n ->
  tri ok (fun '(mp', e') => shape c mp' /\ same_but_analog mp mp' /\ par mp' = par mp)
    (a_write_xnn c both mp m n e).
Proof.
  intros Hs HN HC. unfold a_write_xnn.
  apply (tri_bind ok (fun '(a, a0, b, b0, _) => mok a /\ mok a0 /\ mok b /\ mok b0)).
  { apply tri_loop. { repeat split; apply Hs. } intros i st Hi' Hst.
    apply tri_loop; auto. intros j [[[[a a0] b] b0] k] Hj (Ha & Ha0 & Hb & Hb0).
    assert (HB : oob \/ ((i < rowsN c)%nat /\ (j < colsN c)%nat)) by bw HC.
    eapply (tri_bind ok). { apply tri_put_noisy; auto. apply Hs. }
    intros [[a' a0'] k'] [Ha' Ha0']. destruct both; [|now cbn].
    eapply (tri_bind ok). { apply tri_put_noisy; auto. apply Hs. }
    intros [[b' b0'] k2] [Hb' Hb0']. now cbn. }
  intros [[[[a a0] b] b0] k] (Ha & Ha0 & Hb & Hb0). split; [|split].
  - cbn. shp Hs.
  - exists a, b, a0, b0, (par mp). now destruct mp.
  - reflexivity.
Qed.

Lemma set_conductance_par iap iam m n po po' :
  set_conductance c iap iam m n po = Ok po' ->
  exists p p', po = Some p /\ po' = Some p' /\ ps_m p' = ps_m p /\ ps_n p' = ps_n p /\
               ps_mode p' = ps_mode p.
Proof.
  unfold set_conductance. destruct po as [p|]; [|discriminate]. intros H.
  apply bind_Ok in H. destruct H as (gp & _ & H).
  apply bind_Ok in H. destruct H as (gm & _ & H).
  apply bind_Ok in H. destruct H as (w & _ & H).
  apply bind_Ok in H. destruct H as (ga & _ & H).
  apply bind_Ok in H. destruct H as (r0 & _ & H).
  inversion H; subst. exists p. eexists. repeat split.
Qed.

Lemma a_write_tri mp m n e : cfg_wf c -> shape c mp -> wcalm mp m n ->
  tri ok (fun '(mp', e') => shape c mp' /\ same_but_analog mp mp' /\
            (par mp = None -> par mp' = None)) (a_write c mp m n e).
Proof.
  intros Hw Hs HC. unfold a_write. set (both := match mp_mode mp with I_UINT_W_OFFS => _ | _ => _ end).
  apply (tri_bind ok (fun '(mp', e') => shape c mp' /\ same_but_analog mp mp' /\ par mp' = par mp)).
  { rewrite (sh_mode _ _ Hs). destruct (is_int (m_mode c)) eqn:Ei.
    - eapply (tri_bind ok). { apply a_write_int_tri; auto. } intros mp' H. exact H.
    - apply a_write_xnn_tri; auto. now apply wf_ns. }
  intros [mp1 e1] (Hs1 & Ha1 & Hp1). destruct (parasitics c) eqn:Ep.
  - set (rows := if is_int _ then _ else _).
    apply (tri_bind ok (fun po' => exists p p', par mp1 = Some p /\ po' = Some p' /\
        ps_m p' = ps_m p /\ ps_n p' = ps_n p /\ ps_mode p' = ps_mode p)).
    { destruct HC as [HC|(Hm & Hn & H1 & HP)].
      { apply tri_all; auto. intros po' H. destruct (mp_mode mp1); eapply set_conductance_par; exact H. }
      destruct HP as [HP|(HP & Htc & HM & HN & H2)]; [congruence|].
      destruct (par mp1) as [p|] eqn:Epar; [|congruence].
      destruct (sh_par _ _ Hs1 p Epar) as (F1 & F2 & F3).
      assert (HR : (rows <= MM c * nsplit c)%nat) by (unfold rows; destruct (is_int _); nia).
      assert (HR0 : m = 0%nat -> rows = 0%nat) by (unfold rows; destruct (is_int _); nia).
      assert (HW : forall w iap iam im, wenc_of (m_mode c) = Some w -> handed p w (rowsN c) iap iam im ->
        tri ok (fun po' => exists p0 p', Some p = Some p0 /\ po' = Some p' /\
          ps_m p' = ps_m p0 /\ ps_n p' = ps_n p0 /\ ps_mode p' = ps_mode p0)
          (set_conductance c iap iam rows n (Some p))).
      { intros w iap iam im Ew Hh.
        destruct (set_conductance_ok c p w (rowsN c) iap iam im rows n) as (p' & E & (S1 & S2 & _ & _ & S3) & _);
          try rewrite F1; try rewrite F2; try rewrite F3; auto.
        - unfold rowsN. nia.
        - intros Hw2. destruct H2 as [H2|H2]; auto. destruct (m_mode c); try reflexivity; inversion Ew; subst; discriminate.
        - rewrite E. exists p, p'. auto. }
      assert (Hm1 : wf2 (rowsN c) (ps_n p) (ia_p mp1)) by (rewrite F2; apply Hs1).
      assert (Hm2 : wf2 (rowsN c) (ps_n p) (ia_m mp1)) by (rewrite F2; apply Hs1).
      rewrite (sh_mode _ _ Hs1). destruct (m_mode c) eqn:Em;
        try (eapply HW with (im := ia_m mp1); [reflexivity|]; split; [exact Hm1|auto]; fail).
      - congruence.
      - eapply HW with (im := ia_p mp1); [reflexivity|]. split; [exact Hm2|auto]. }
    intros po' (p & p' & Hpar & -> & E1 & E2 & E3).
    destruct (sh_par _ _ Hs1 p Hpar) as (F1 & F2 & F3). split; [|split].
    + cbn. destruct Hs1; constructor; cbn; auto; try discriminate.
      intros q Hq. inversion Hq; subst. repeat split; congruence.
    + destruct Ha1 as (ip & im & ip0 & im0 & q & ->). exists ip, im, ip0, im0, (Some p').
      now destruct mp.
    + intros Hn. rewrite Hn in Hp1. congruence.
  - cbn. split; [|split]; auto. congruence.
Qed.

(** ** Cycle-to-cycle variation *)
Lemma add_c2c_tri mp m n e : shape c mp ->
  any \/ ((m <= MM c)%nat /\ (n <= colsN c)%nat /\ (1 <= nsplit c)%nat) ->
  tri ok (fun '(mp', e') => shape c mp' /\ same_but_analog mp mp' /\ par mp' = par mp)
    (add_c2c c mp m n e).
Proof.
  intros Hs HC. unfold add_c2c.
  apply (tri_bind ok (fun '(a, b, _) => mok a /\ mok b)).
  { apply tri_loop. { split; apply Hs. } intros i st Hi' Hst.
    apply tri_loop; auto. intros j [[a b] k] Hj [Ha Hb].
    assert (HB : oob \/ ((i < rowsN c)%nat /\ (j < colsN c)%nat))
      by (destruct HC as [HC|(?&?&?)]; [left; apply HC|right; unfold rowsN; nia]).
    apply (tri_bind ok tt). { eapply tri_get2; [apply Hs|auto|now intros]. } intros x _.
    apply (tri_bind ok tt). { eapply tri_get2; [apply Hs|auto|now intros]. } intros g _.
    apply (tri_bind ok tt). { apply tri_add_noise. } intros [x1 k1] _.
    apply (tri_bind ok mok). { now apply tri_set2. } intros a' Ha'.
    apply (tri_bind ok tt). { eapply tri_get2; [apply Hs|auto|now intros]. } intros y _.
    apply (tri_bind ok tt). { eapply tri_get2; [apply Hs|auto|now intros]. } intros h _.
    apply (tri_bind ok tt). { apply tri_add_noise. } intros [y1 k2] _.
    apply (tri_bind ok mok). { now apply tri_set2. } intros b' Hb'. now cbn. }
  intros [[a b] k] [Ha Hb]. split; [|split].
  - cbn. shp Hs.
  - exists a, b, (ia_p0 mp), (ia_m0 mp), (par mp). now destruct mp.
  - reflexivity.
Qed.
Lemma remove_c2c_tri mp m n : shape c mp ->
  any \/ ((m <= MM c)%nat /\ (n <= colsN c)%nat /\ (1 <= nsplit c)%nat) ->
  tri ok (fun mp' => shape c mp' /\ same_but_analog mp mp' /\ par mp' = par mp)
    (remove_c2c mp m n).
Proof.
  intros Hs HC. unfold remove_c2c.
  apply (tri_bind ok (fun '(a, b) => mok a /\ mok b)).
  { apply tri_loop. { split; apply Hs. } intros i st Hi' Hst.
    apply tri_loop; auto. intros j [a b] Hj [Ha Hb].
    assert (HB : oob \/ ((i < rowsN c)%nat /\ (j < colsN c)%nat))
      by (destruct HC as [HC|(?&?&?)]; [left; apply HC|right; unfold rowsN; nia]).
    apply (tri_bind ok tt). { eapply tri_get2; [apply Hs|auto|now intros]. } intros x _.
    apply (tri_bind ok mok). { now apply tri_set2. } intros a' Ha'.
    apply (tri_bind ok tt). { eapply tri_get2; [apply Hs|auto|now intros]. } intros y _.
    apply (tri_bind ok mok). { now apply tri_set2. } intros b' Hb'. now cbn. }
  intros [a b] [Ha Hb]. split; [|split].
  - cbn. shp Hs.
  - exists a, b, (ia_p0 mp), (ia_m0 mp), (par mp). now destruct mp.
  - reflexivity.
Qed.

(** ** Read disturb *)
Lemma tri_disturb r reads gd cyc ia b : mok gd -> mok cyc -> mok ia ->
  (forall i j, (i < rowsN c)%nat -> (j < colsN c)%nat -> tri ok tt (reads i j)) ->
  tri ok (fun '(ia', _) => mok ia') (disturb c r reads gd cyc ia b).
Proof.
  intros Hg [Hc1 Hc2] Hi Hr. unfold disturb. rewrite Hc1. rewrite Forall_forall in Hc2.
  apply tri_loop; auto. intros i st Hi' Hst.
  apply (tri_bind ok (fun row => len row = colsN c)). { apply tri_get; [right; lia|]. auto. }
  intros row Hrow. rewrite Hrow. apply tri_loop; auto. intros j [a b'] Hj Ha.
  apply (tri_bind ok tt). { eapply tri_get2; [apply Hg|right; lia|now intros]. } intros g _.
  destruct (g =? 1); [|now cbn].
  apply (tri_bind ok tt); [apply Hr; lia|]. intros k _.
  apply (tri_bind ok tt). { apply tri_get; [right; lia|now intros]. } intros cy _.
  destruct (g0_factor _ _ _ _) as [f b2].
  apply (tri_bind ok mok). { apply tri_set2; auto. } intros a' Ha'. now cbn.
Qed.

Lemma rd_update_tri rp rm mp r : shape c mp -> rdshape c r ->
  (forall i j, (i < rowsN c)%nat -> (j < colsN c)%nat -> tri ok tt (rp i j)) ->
  (forall i j, (i < rowsN c)%nat -> (j < colsN c)%nat -> tri ok tt (rm i j)) ->
  tri ok (fun '(mp', r') => shape c mp' /\ same_but_analog mp mp' /\ par mp' = par mp /\
            exists b, r' = r <| rd_oob := b |>)
    (rd_update c rp rm mp r).
Proof.
  intros Hs Hr Hp Hm. unfold rd_update.
  apply (tri_bind ok (fun '(a, _) => mok a)). { apply tri_disturb; auto; [apply Hs|apply Hr|apply Hs]. }
  intros [a b] Ha. destruct (mp_diff mp).
  - apply (tri_bind ok (fun '(a, _) => mok a)). { apply tri_disturb; auto; [apply Hs|apply Hr|apply Hs]. }
    intros [a2 b2] Ha2. split; [|split; [|split]].
    + cbn. shp Hs.
    + exists a, a2, (ia_p0 mp), (ia_m0 mp), (par mp). now destruct mp.
    + reflexivity.
    + now exists b2.
  - split; [|split; [|split]].
    + cbn. shp Hs.
    + exists a, (ia_m mp), (ia_p0 mp), (ia_m0 mp), (par mp). now destruct mp.
    + reflexivity.
    + now exists b.
Qed.

Lemma tri_refresh_cells gd ia0 ia cyc con cnt k : mok gd -> mok ia0 -> mok ia -> mok cyc -> mok con ->
  tri ok (fun '(a, y, o, _, _) => mok a /\ mok y /\ mok o) (refresh_cells c gd ia0 (ia, cyc, con, cnt, k)).
Proof.
  intros Hg [Hc1 Hc2] Hi Hcy Hco. unfold refresh_cells. rewrite Hc1. rewrite Forall_forall in Hc2.
  apply tri_loop; auto. intros i st Hi' Hst.
  apply (tri_bind ok (fun row => len row = colsN c)). { apply tri_get; [right; lia|]. auto. }
  intros row Hrow. rewrite Hrow. apply tri_loop; auto. intros j [[[[a y] o] ct] k'] Hj (Ha & Hy & Ho).
  apply (tri_bind ok tt). { eapply tri_get2; [apply Hg|right; lia|now intros]. } intros g _.
  destruct (g =? 1); [|now cbn].
  apply (tri_bind ok tt). { eapply tri_get2; [apply Ha|right; lia|now intros]. } intros x _.
  destruct (_ || _); [|now cbn].
  apply (tri_bind ok tt). { apply tri_add_noise. } intros [x1 k1] _.
  apply (tri_bind ok mok). { apply tri_set2; auto. } intros a' Ha'.
  apply (tri_bind ok tt). { eapply tri_get2; [apply Hy|right; lia|now intros]. } intros y1 _.
  apply (tri_bind ok mok). { apply tri_set2; auto. } intros y' Hy'.
  apply (tri_bind ok mok). { apply tri_set2; auto. } intros o' Ho'.
  apply (tri_bind ok tt); [now apply tri_chk32|]. now intros.
Qed.

Lemma cell_refresh_tri mp r e : shape c mp -> rdshape c r ->
  tri ok (fun '(mp', r', _, e') => shape c mp' /\ same_but_analog mp mp' /\ par mp' = par mp /\
            rdshape c r') (cell_refresh c mp r e).
Proof.
  intros Hs Hr. unfold cell_refresh.
  eapply (tri_bind ok). { apply tri_refresh_cells; try apply Hs; apply Hr. }
  intros [[[[a y] o] ct] k] (Ha & Hy & Ho). destruct (mp_diff mp).
  - eapply (tri_bind ok). { apply tri_refresh_cells; try apply Hs; apply Hr. }
    intros [[[[a2 y2] o2] ct2] k2] (Ha2 & Hy2 & Ho2). split; [|split; [|split]].
    + cbn. shp Hs.
    + exists a, a2, (ia_p0 mp), (ia_m0 mp), (par mp). now destruct mp.
    + reflexivity.
    + constructor; cbn; auto.
  - split; [|split; [|split]].
    + cbn. shp Hs.
    + exists a, (ia_m mp), (ia_p0 mp), (ia_m0 mp), (par mp). now destruct mp.
    + reflexivity.
    + destruct Hr; constructor; cbn; auto.
Qed.

Lemma tri_update_cycles up um r : rdshape c r -> wf2 (rowsN c) (colsN c) up ->
  wf2 (rowsN c) (colsN c) um ->
  tri ok (fun r' => rdshape c r' /\ exists p m, r' = r <| cyc_p := p |> <| cyc_m := m |>)
    (update_cycles up um r).
Proof.
  intros Hr Hu Hm. unfold update_cycles. destruct (rs_cp _ _ Hr) as [Hc1 Hc2]. rewrite Hc1.
  rewrite Forall_forall in Hc2.
  apply (tri_bind ok (fun '(a, b) => mok a /\ mok b)).
  { apply tri_loop. { split; apply Hr. } intros i st Hi Hst.
    apply (tri_bind ok (fun row => len row = colsN c)). { apply tri_get; [right; lia|]. auto. }
    intros row Hrow. rewrite Hrow. apply tri_loop; auto. intros j [a b] Hj [Ha Hb].
    apply (tri_bind ok mok).
    { apply (tri_bind ok tt). { eapply tri_get2; [apply Hu|right; lia|now intros]. } intros u _.
      apply (tri_bind ok tt). { eapply tri_get2; [apply Ha|right; lia|now intros]. } intros x _.
      apply tri_set2; auto. }
    intros a' Ha'. apply (tri_bind ok mok).
    { apply (tri_bind ok tt). { eapply tri_get2; [apply Hm|right; lia|now intros]. } intros u _.
      apply (tri_bind ok tt). { eapply tri_get2; [apply Hb|right; lia|now intros]. } intros x _.
      apply tri_set2; auto. }
    intros b' Hb'. now cbn. }
  intros [a b] [Ha Hb]. split; [|now exists a, b]. destruct Hr; constructor; cbn; auto.
Qed.

Lemma tri_update_consecutive m n r : rdshape c r ->
  any \/ ((m <= MM c)%nat /\ (n <= colsN c)%nat) ->
  tri ok (rdshape c) (update_consecutive c m n r).
Proof.
  intros Hr HC. unfold update_consecutive.
  apply (tri_bind ok (fun '(a, b) => mok a /\ mok b)).
  { apply tri_loop. { split; apply Hr. } intros i st Hi Hst.
    apply tri_loop; auto. intros j [a b] Hj [Ha Hb].
    assert (HB : oob \/ ((i < rowsN c)%nat /\ (j < colsN c)%nat))
      by (destruct HC as [HC|(?&?)]; [left; apply HC|right; unfold rowsN; nia]).
    apply (tri_bind ok mok).
    { apply (tri_bind ok tt). { eapply tri_get2; [apply Ha|auto|now intros]. } intros x _.
      apply tri_set2; auto. }
    intros a' Ha'. apply (tri_bind ok mok).
    { apply (tri_bind ok tt). { eapply tri_get2; [apply Hb|auto|now intros]. } intros x _.
      apply tri_set2; auto. }
    intros b' Hb'. now cbn. }
  intros [a b] [Ha Hb]. destruct Hr; constructor; cbn; auto.
Qed.

Lemma tri_reset_consecutive r : rdshape c r -> tri ok (rdshape c) (reset_consecutive c r).
Proof.
  intros Hr. unfold reset_consecutive.
  apply (tri_bind ok (fun '(a, b) => mok a /\ mok b)).
  { apply tri_loop. { split; apply Hr. } intros i st Hi Hst.
    apply tri_loop; auto. intros j [a b] Hj [Ha Hb].
    apply (tri_bind ok mok). { apply tri_set2; auto. } intros a' Ha'.
    apply (tri_bind ok mok). { apply tri_set2; auto. } intros b' Hb'. now cbn. }
  intros [a b] [Ha Hb]. destruct Hr; constructor; cbn; auto.
Qed.

Lemma tri_reset_mask prev cur : mok prev -> mok cur ->
  tri ok (wf2 (rowsN c) (colsN c)) (reset_mask c prev cur).
Proof.
  intros Hp Hc. unfold reset_mask. apply tri_loop; [apply wf2_mat2|]. intros i u Hi Hu.
  apply tri_loop; auto. intros j u2 Hj Hu2.
  apply (tri_bind ok tt). { eapply tri_get2; [apply Hp|right; lia|now intros]. } intros x _.
  apply (tri_bind ok tt). { eapply tri_get2; [apply Hc|right; lia|now intros]. } intros y _.
  destruct (_ && _); [|exact Hu2]. apply tri_set2; auto.
Qed.

Lemma tri_lrs_mask gd cnt : mok gd ->
  tri ok (fun '(u, _) => wf2 (rowsN c) (colsN c) u) (lrs_mask c gd cnt).
Proof.
  intros Hg. unfold lrs_mask. apply tri_loop; [apply wf2_mat2|]. intros i u Hi Hu.
  apply tri_loop; auto. intros j [u2 k] Hj Hu2.
  apply (tri_bind ok tt). { eapply tri_get2; [apply Hg|right; lia|now intros]. } intros x _.
  destruct (x =? 1); [|exact Hu2]. apply (tri_bind ok (wf2 (rowsN c) (colsN c))).
  { apply tri_set2; auto. } now intros.
Qed.

(** ** The crossbar *)
Lemma xwrite_tri x mat m n e : cfg_wf c -> xok c x ->
  any \/ ((m <= MM c)%nat /\ (n <= colsN c)%nat /\ (m * n <= len mat)%nat /\
          (digital_only c = true \/ ((1 <= nsplit c)%nat /\ wpsafe (xm x) m n))) ->
  tri ok (fun '(x', e') => xok c x' /\ n_write x' = n_write x + 1 /\ n_read x' = 0 /\
            n_mvm x' = n_mvm x /\ n_refresh x' = n_refresh x /\ n_cell x' = n_cell x /\
            (par (xm x) = None -> par (xm x') = None)) (xwrite c x mat m n e).
Proof.
  intros Hw Hx HC. unfold xwrite. cbv zeta.
  change (xm (x <|n_write := n_write x + 1|> <|n_read := 0|>)) with (xm x).
  change (xrd (x <|n_write := n_write x + 1|> <|n_read := 0|>)) with (xrd x).
  assert (HB : oob \/ ((m <= MM c)%nat /\ (n <= colsN c)%nat /\ (m * n <= len mat)%nat))
    by (destruct HC as [HC|(?&?&?&?)]; [left; apply HC|auto]).
  pose proof (xo_shape _ _ Hx) as Hs.
  apply (tri_bind ok (fun x' => xok c x' /\ n_write x' = n_write x + 1 /\ n_read x' = 0 /\
            n_mvm x' = n_mvm x /\ n_refresh x' = n_refresh x /\ n_cell x' = n_cell x /\
            par (xm x') = par (xm x))).
  - destruct (read_disturb c) eqn:Er.
    + eapply (tri_bind ok). { apply d_write_tri; auto. } intros mp' [Hs' Hd].
      eapply (tri_bind ok). { apply tri_reset_mask; [apply Hs|apply Hs']. } intros up Hup.
      eapply (tri_bind ok). { apply tri_reset_mask; [apply Hs|apply Hs']. } intros um Hum.
      destruct (xrd x) as [r|] eqn:Exr; [|exfalso; now apply (xo_some _ _ Hx Er)].
      pose proof (xo_rd _ _ Hx _ Exr) as Hr. cbn [deref bind].
      eapply (tri_bind ok). { apply tri_update_cycles; eauto. } intros r1 [Hr1 _].
      apply (tri_bind ok (rdshape c)).
      { destruct (mitigation c); try exact Hr1. now apply tri_reset_consecutive. }
      intros r2 Hr2. destruct Hd as (gp & gm & sw & ->). split; [constructor|].
      * exact Hs'.
      * cbn. intros q Hq. now inversion Hq; subst.
      * cbn. discriminate.
      * cbn. repeat split; auto.
    + eapply (tri_bind ok). { apply d_write_tri; auto. } intros mp' [Hs' Hd].
      destruct Hd as (gp & gm & sw & ->). split; [constructor|].
      * exact Hs'.
      * cbn. apply Hx.
      * congruence.
      * cbn. repeat split; auto.
  - intros x1 (Hx1 & E1 & E2 & E3 & E4 & E5 & E6). destruct (digital_only c) eqn:Ed.
    + cbn. split; [exact Hx1|]. repeat split; auto. congruence.
    + eapply (tri_bind ok).
      { eapply a_write_tri; eauto; [apply Hx1|]. unfold wcalm.
        destruct HC as [HC|(?&?&?&[?|[]])]; [auto|congruence|]. unfold wpsafe. rewrite E6. auto. }
      intros [mp' e'] (Hs' & Ha & Hp). split; [constructor|].
      * exact Hs'.
      * cbn. apply Hx1.
      * cbn. apply Hx1.
      * cbn. repeat split; auto. intros Hn. apply Hp. congruence.
Qed.

Lemma same_an_keeps mp mp' : same_but_analog mp mp' ->
  gd_p mp' = gd_p mp /\ gd_m mp' = gd_m mp /\ sum_w mp' = sum_w mp.
Proof. intros (ip & im & ip0 & im0 & p & ->). auto. Qed.

(** The digital half of a mapper is unchanged. *)
Definition same_digital (mp mp' : mapper) : Prop :=
  gd_p mp' = gd_p mp /\ gd_m mp' = gd_m mp /\ sum_w mp' = sum_w mp.
Lemma sd_trans a b d : same_digital a b -> same_digital b d -> same_digital a d.
Proof. unfold same_digital. intuition congruence. Qed.
Lemma sd_refl a : same_digital a a.
Proof. unfold same_digital. auto. Qed.

Definition rpost (x : xbar) (x' : xbar) : Prop :=
  xok c x' /\ same_digital (xm x) (xm x') /\ n_write x' = n_write x /\ n_mvm x' = n_mvm x /\
  (par (xm x) = None -> par (xm x') = None).

Lemma soft_refresh_tri x r e : cfg_wf c -> xok c x -> rdshape c r ->
  any \/ ((1 <= nsplit c)%nat /\ wpsafe (xm x) (MM c) (colsN c)) ->
  tri ok (fun '(x', _) => rpost x x') (soft_refresh c x r e).
Proof.
  intros Hw Hx Hr HC. unfold soft_refresh. pose proof (xo_shape _ _ Hx) as Hs.
  eapply (tri_bind ok). { apply tri_lrs_mask. apply Hs. } intros [up k] Hup.
  apply (tri_bind ok (fun '(u, _) => wf2 (rowsN c) (colsN c) u)).
  { destruct (mp_diff (xm x)); [apply tri_lrs_mask; apply Hs|]. apply wf2_mat2. }
  intros [um k2] Hum.
  eapply (tri_bind ok). { apply tri_update_cycles; eauto. } intros r1 [Hr1 _].
  eapply (tri_bind ok). { eapply a_write_tri; eauto. unfold wcalm. destruct HC as [HC|[]]; auto. }
  intros [mp' e'] (Hs' & Ha & Hp). split; [constructor|].
  - exact Hs'.
  - cbn. intros q Hq. now inversion Hq; subst.
  - discriminate.
  - cbn. repeat split; auto; now apply same_an_keeps in Ha as (?&?&?).
Qed.

Lemma tri_at_update x : tri ok tt (at_update c x).
Proof. unfold at_update. destruct (_ =? 0); [apply HL|exact I]. Qed.

Lemma rd_step_tri x m n e : cfg_wf c -> xok c x -> read_disturb c = true ->
  any \/ ((m <= MM c)%nat /\ (n <= colsN c)%nat /\ (1 <= nsplit c)%nat /\
          (mitigation c = SOFTWARE -> wpsafe (xm x) (MM c) (colsN c))) ->
  tri ok (fun '(x', _) => rpost x x') (rd_step c x m n e).
Proof.
  intros Hw Hx Hrd HC. unfold rd_step. pose proof (xo_shape _ _ Hx) as Hs.
  assert (Hself : rpost x x) by (split; [exact Hx|]; repeat split; auto).
  destruct (xrd x) as [r|] eqn:Exr; [|exfalso; now apply (xo_some _ _ Hx Hrd)].
  pose proof (xo_rd _ _ Hx _ Exr) as Hr. cbn [deref bind].
  assert (HC' : any \/ ((1 <= nsplit c)%nat /\ (mitigation c = SOFTWARE -> wpsafe (xm x) (MM c) (colsN c)))) by tauto.
  destruct (mitigation c).
  - eapply (tri_bind ok); [apply tri_at_update|]. cbn beta; intros u _; destruct u; [|exact Hself].
    eapply (tri_bind ok). { apply rd_update_tri; eauto; intros; exact I. }
    intros [mp' r'] (Hs' & Ha & Hp & b & ->). unfold check_refresh.
    destruct (trans_time _ _) as [t2 b2].
    set (x1 := x <| xm := mp' |> <| xrd := _ |>).
    assert (Hx1 : xok c x1).
    { constructor; [exact Hs'| |discriminate]. cbn. intros q Hq. inversion Hq; subst.
      destruct Hr; now constructor. }
    assert (Hp1 : rpost x x1).
    { split; [exact Hx1|]. repeat split; cbn; auto; try congruence; now apply same_an_keeps in Ha as (?&?&?). }
    destruct (fle _ _); [|exact Hp1].
    eapply tri_weaken.
    { apply soft_refresh_tri; auto; [destruct Hr; now constructor|]. destruct HC' as [HC'|[? HC']]; [auto|right].
      split; [auto|]. specialize (HC' eq_refl). unfold wpsafe in *. change (xm x1) with mp'. now rewrite Hp. }
    intros [x2 e2] (H1 & H2 & H3 & H4 & H5). destruct Hp1 as (_ & G2 & G3 & G4 & G5).
    split; [exact H1|]. split; [eapply sd_trans; eauto|]. repeat split; try congruence. auto.
  - eapply (tri_bind ok). { apply tri_update_consecutive; eauto. tauto. } intros r1 Hr1.
    set (x1 := x <| xrd := Some r1 |>).
    assert (Hx1 : xok c x1).
    { constructor; [exact Hs| |discriminate]. cbn. intros q Hq. now inversion Hq; subst. }
    eapply (tri_bind ok); [apply tri_at_update|]. cbn beta; intros u _; destruct u.
    + eapply (tri_bind ok).
      { apply rd_update_tri; [exact Hs|exact Hr1| |]; intros i j Hi Hj;
          [eapply tri_get2; [apply Hr1|auto|now intros]|eapply tri_get2; [apply (rs_km _ _ Hr1)|auto|now intros]]. }
      intros [mp' r'] (Hs' & Ha & Hp & b & ->).
      eapply (tri_bind ok). { apply cell_refresh_tri; auto. destruct Hr1; now constructor. }
      intros [[[mp2 r2] cnt] e2] (Hs2 & Ha2 & Hp2 & Hr2). split; [constructor|].
      * exact Hs2.
      * cbn. intros q Hq. now inversion Hq; subst.
      * discriminate.
      * apply same_an_keeps in Ha as (?&?&?), Ha2 as (?&?&?).
        cbn in *. repeat split; cbn; auto; try congruence.
    + split; [exact Hx1|]. repeat split; auto.
  - eapply (tri_bind ok); [apply tri_at_update|]. cbn beta; intros u _; destruct u; [|exact Hself].
    eapply (tri_bind ok). { apply rd_update_tri; eauto; intros; exact I. }
    intros [mp' r'] (Hs' & Ha & Hp & b & ->). split; [constructor|].
    + exact Hs'.
    + cbn. intros q Hq. inversion Hq; subst. destruct Hr; now constructor.
    + discriminate.
    + cbn. repeat split; auto; try congruence; now apply same_an_keeps in Ha as (?&?&?).
Qed.

Lemma xmvm_tri x res vec mat m n l e : cfg_wf c -> xok c x ->
  any \/ ((m <= MM c)%nat /\ (n <= colsN c)%nat /\ (m <= len res)%nat /\ (n <= len vec)%nat /\
          (digital_only c = true \/
           ((1 <= nsplit c)%nat /\ psafe (xm x) m n /\ adc_profile c = false /\
            (read_disturb c = true -> mitigation c = SOFTWARE -> wpsafe (xm x) (MM c) (colsN c))))) ->
  tri ok (fun '(r, x', e') => xok c x' /\ same_digital (xm x) (xm x') /\ len r = len res /\
            n_write x' = n_write x /\ n_mvm x' = n_mvm x + 1 /\
            (par (xm x) = None -> par (xm x') = None)) (xmvm c x res vec mat m n l e).
Proof.
  intros Hw Hx HC. unfold xmvm. cbv zeta.
  set (x0 := x <|n_mvm := n_mvm x + 1|> <|n_read := n_read x + 1|>).
  change (xm x0) with (xm x). pose proof (xo_shape _ _ Hx) as Hs.
  destruct (digital_only c) eqn:Ed.
  - eapply (tri_bind ok).
    { apply d_mvm_tri; eauto. destruct HC as [HC|(?&?&?&?&?)]; [left; apply HC|auto]. }
    intros [r mp'] (Hs' & Hk & Hr). split; [constructor|].
    + exact Hs'.
    + cbn. apply Hx.
    + cbn. apply Hx.
    + cbn in *. destruct Hk. repeat split; auto. congruence.
  - assert (HC1 : any \/ ((m <= MM c)%nat /\ (n <= colsN c)%nat /\ (1 <= nsplit c)%nat /\
        (read_disturb c = true -> mitigation c = SOFTWARE -> wpsafe (xm x) (MM c) (colsN c))))
      by (destruct HC as [HC|(?&?&?&?&[?|(?&?&?&?)])]; [auto|congruence|auto]).
    assert (HC2 : any \/ ((m <= MM c)%nat /\ (n <= colsN c)%nat /\ (1 <= nsplit c)%nat)) by tauto.
    apply (tri_bind ok (fun '(mp', _) => shape c mp' /\ same_but_analog (xm x) mp' /\ par mp' = par (xm x))).
    { destruct (c2c_var c).
      - eapply tri_weaken; [apply add_c2c_tri; auto|]. now intros [].
      - split; auto. split; auto. exists (ia_p (xm x)), (ia_m (xm x)), (ia_p0 (xm x)), (ia_m0 (xm x)), (par (xm x)).
        now destruct (xm x). }
    intros [mp1 e1] (Hs1 & Ha1 & Hp1).
    eapply (tri_bind ok).
    { apply a_mvm_tri; eauto. unfold calm, psafe. rewrite Hp1.
      destruct HC as [HC|(?&?&?&?&[?|(?&?&?&?)])]; [auto|congruence|]. right. unfold psafe in *. repeat split; auto. }
    intros [[r mp2] e2] (Hs2 & Hk2 & Hr2 & _).
    apply (tri_bind ok (fun mp' => shape c mp' /\ same_but_analog mp2 mp' /\ par mp' = par mp2)).
    { destruct (c2c_var c).
      - apply remove_c2c_tri; auto.
      - split; auto. split; auto. exists (ia_p mp2), (ia_m mp2), (ia_p0 mp2), (ia_m0 mp2), (par mp2).
        now destruct mp2. }
    intros mp3 (Hs3 & Ha3 & Hp3). set (x3 := x0 <| xm := mp3 |>).
    assert (Hx3 : xok c x3). { constructor; [exact Hs3|cbn; apply Hx|cbn; apply Hx]. }
    assert (Hsd : same_digital (xm x) mp3).
    { apply same_an_keeps in Ha1 as (?&?&?), Ha3 as (?&?&?). destruct Hk2. repeat split; congruence. }
    assert (Hpar : par mp3 = par (xm x)) by (destruct Hk2; congruence).
    apply (tri_bind ok (fun '(x', _) => rpost x3 x')).
    { destruct (read_disturb c) eqn:Er; [apply rd_step_tri; auto; unfold wpsafe in *; change (xm x3) with mp3; rewrite Hpar; tauto|].
      split; [exact Hx3|]. repeat split; auto. }
    intros [x4 e4] (H1 & H2 & H3 & H4 & H5). split; [exact H1|]. split; [eapply sd_trans; [exact Hsd|exact H2]|].
    repeat split; auto. intros Hn. apply H5. cbn. congruence.
Qed.
End T.
End AS.
