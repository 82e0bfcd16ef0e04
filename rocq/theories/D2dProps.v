(** C32: the key d2d_var changes nothing. *)
From Coq Require Import String List ZArith Bool Arith Lia ZifyBool ZifyNat.
From RecordUpdate Require Import RecordSet.
From Verif Require Import Base Lib Hoare Machine Json Config Histogram Adc ReadDisturb Parasitics
  Mapper IntMappers BnnMappers TnnMappers Crossbar Api ConfigProofs Reach Spec.
Import ListNotations RecordSetNotations.
Local Open Scope Z_scope.
Local Open Scope out_scope.

Section D.
Context {MC : Machine}.

Definition like (b : bool) (w1 w2 : world) : Prop :=
  wcfg w2 = wcfg w1 <| d2d_var := b |> /\ wx w2 = wx w1 /\ wenv w2 = wenv w1.

Lemma d2d_write c b x mat m n e : xwrite (c <| d2d_var := b |>) x mat m n e = xwrite c x mat m n e.
Proof. reflexivity. Qed.
Lemma d2d_mvm c b x res vec mat m n l e : xmvm (c <| d2d_var := b |>) x res vec mat m n l e = xmvm c x res vec mat m n l e.
Proof. reflexivity. Qed.
Lemma d2d_new c b : xbar_new (c <| d2d_var := b |>) = xbar_new c.
Proof. reflexivity. Qed.

(** Same failure, or same answer and again alike. *)
Definition both_like (b : bool) {A} (o1 o2 : out (world * A)) : Prop :=
  match o1, o2 with
  | Ok (w1, r1), Ok (w2, r2) => like b w1 w2 /\ r1 = r2
  | UB f, UB g => f = g
  | Died, Died => True
  | Threw, Threw => True
  | _, _ => False
  end.
Lemma both_seen b {A} (o1 o2 : out (world * A)) : both_like b o1 o2 -> seen o1 = seen o2.
Proof.
  unfold both_like, seen. destruct o1 as [[w1 r1]| | |], o2 as [[w2 r2]| | |]; try easy.
  - now intros [_ ->].
  - now intros ->.
Qed.

Lemma keep_like b w1 w2 (r : result) : like b w1 w2 -> both_like b (Ok (w1, r)) (Ok (w2, r)).
Proof. intros H. split; [exact H|reflexivity]. Qed.
Lemma step_like b w1 w2 a : like b w1 w2 -> no_config a -> both_like b (step w1 a) (step w2 a).
Proof.
  intros HL Ha. pose proof HL as (Hc & Hx & He). destruct a; cbn in Ha; try easy; cbn [step].
  - unfold cpy_mtrx. rewrite Hx, He, Hc. destruct (wx w1) as [x|]; [|now apply keep_like].
    unfold too_big. change (M (wcfg w1 <| d2d_var := b |>)) with (M (wcfg w1)).
    change (N (wcfg w1 <| d2d_var := b |>)) with (N (wcfg w1)).
    destruct (_ || _); [now apply keep_like|]. destruct (dims m n) as [[m' n']| | |]; cbn [bind]; try easy.
    rewrite d2d_write. destruct (xwrite _ _ _ _ _ _) as [[x' e']| | |]; cbn [bind]; try easy;
    apply keep_like; refine (conj Hc (conj eq_refl eq_refl)).
  - unfold exe_mvm. rewrite Hx, He, Hc. destruct (wx w1) as [x|]; [|now apply keep_like].
    unfold too_big. change (M (wcfg w1 <| d2d_var := b |>)) with (M (wcfg w1)).
    change (N (wcfg w1 <| d2d_var := b |>)) with (N (wcfg w1)).
    destruct (_ || _); [now apply keep_like|]. destruct (dims m n) as [[m' n']| | |]; cbn [bind]; try easy.
    rewrite d2d_mvm. destruct (xmvm _ _ _ _ _ _ _ _ _) as [[[r' x'] e']| | |]; cbn [bind]; try easy;
    apply keep_like; refine (conj Hc (conj eq_refl eq_refl)).
  - unfold py_mvm. rewrite Hx, He, Hc. destruct (wx w1) as [x|]; cbn [deref bind]; [|easy].
    destruct (dims m n) as [[m' n']| | |]; cbn [bind]; try easy.
    rewrite d2d_mvm. destruct (xmvm _ _ _ _ _ _ _ _ _) as [[[r' x'] e']| | |]; cbn [bind]; try easy;
    apply keep_like; refine (conj Hc (conj eq_refl eq_refl)).
  - rewrite Hx. destruct (wx w1) as [x|]; cbn [checked bind]; [|easy].
    destruct (get_mat x q); cbn [bind]; try easy; now apply keep_like.
  - rewrite Hx. destruct (wx w1) as [x|]; cbn [checked bind]; [|easy]. now apply keep_like.
  - rewrite Hx. destruct (wx w1) as [x|]; cbn [checked bind]; [|easy]. now apply keep_like.
  - rewrite Hx. destruct (wx w1) as [x|]; cbn [checked bind]; [|easy].
    destruct (xrd x); cbn [bind]; try easy; now apply keep_like.
  - rewrite He. now apply keep_like.
Qed.

Lemma run_like b h : forall w1 w2, like b w1 w2 -> Forall no_config h -> both_like b (run w1 h) (run w2 h).
Proof.
  induction h as [|a h IH]; cbn; intros w1 w2 HL HF; [now split|].
  inversion HF; subst. pose proof (step_like b w1 w2 a HL H1) as HS. unfold both_like in HS.
  destruct (step w1 a) as [[w1' r1]| | |], (step w2 a) as [[w2' r2]| | |]; cbn [bind]; try easy.
  destruct HS as [HL' ->]. specialize (IH _ _ HL' H2). unfold both_like in IH.
  destruct (run w1' h) as [[w1'' rs1]| | |], (run w2' h) as [[w2'' rs2]| | |]; cbn; try easy.
  destruct IH as [? ->]. auto.
Qed.

(** ** Documents that differ in d2d_var only *)
Definition same_elsewhere (j j' : json) : Prop := forall k, k <> "d2d_var"%string -> jat j' k = jat j k.

Definition through (b : bool) (o : out config) : out config := c <- o ;; Ok (c <| d2d_var := b |>).

Ltac other H := first [apply H; discriminate].
Lemma adc_else j j' c : same_elsewhere j j' -> apply_adc j' c = apply_adc j c.
Proof.
  intros H. unfold apply_adc.
  rewrite !(need_same _ j j') by (apply H; discriminate). rewrite !(opt_same _ j j') by (apply H; discriminate). reflexivity.
Qed.
Lemma rd_else j j' c b : same_elsewhere j j' -> apply_rd j' (c <| d2d_var := b |>) = through b (apply_rd j c).
Proof.
  intros H. unfold apply_rd, through.
  rewrite !(need_same _ j j') by (apply H; discriminate). rewrite !(opt_same _ j j') by (apply H; discriminate).
  change (read_disturb (c <| d2d_var := b |>)) with (read_disturb c).
  change (m_mode (c <| d2d_var := b |>)) with (m_mode c).
  destruct (negb (read_disturb c)); [reflexivity|].
  destruct (die_if _) as [[]| | |]; try reflexivity. cbn [bind].
  destruct (need as_float j "t_read") as [t| | |]; try reflexivity. cbn [bind].
  destruct (opt as_u32 j "read_disturb_update_freq" 1) as [u| | |]; try reflexivity. cbn [bind].
  destruct (opt as_string j "read_disturb_mitigation_strategy" "OFF"%string) as [ms| | |]; try reflexivity. cbn [bind].
  destruct (named mitig_names ms) as [mt| | |]; try reflexivity. cbn [bind].
  destruct mt; try reflexivity.
  - destruct (need as_float j "read_disturb_mitigation_fp") as [fp| | |]; try reflexivity. cbn [bind].
    destruct (die_if _) as [[]| | |]; reflexivity.
  - destruct (need as_float j "read_disturb_update_tolerance") as [fp| | |]; try reflexivity. cbn [bind].
    destruct (die_if _) as [[]| | |]; reflexivity.
Qed.
Lemma par_else j j' c b : same_elsewhere j j' -> apply_par j' (c <| d2d_var := b |>) = through b (apply_par j c).
Proof.
  intros H. unfold apply_par, through. rewrite !(need_same _ j j') by (apply H; discriminate).
  change (parasitics (c <| d2d_var := b |>)) with (parasitics c).
  destruct (negb (parasitics c)); [reflexivity|].
  destruct (need as_float j "w_res") as [w| | |]; try reflexivity. cbn [bind]. destruct (feq w f0); reflexivity.
Qed.
Lemma bits_else j j' c b : same_elsewhere j j' -> apply_bits j' (c <| d2d_var := b |>) = through b (apply_bits j c).
Proof.
  intros H. unfold apply_bits, through. rewrite !(need_same _ j j') by (apply H; discriminate).
  change (m_mode (c <| d2d_var := b |>)) with (m_mode c).
  destruct (is_int (m_mode c)).
  - destruct (need as_u32 j "W_BIT") as [w| | |]; try reflexivity. cbn [bind].
    destruct (need as_u32 j "I_BIT") as [i| | |]; try reflexivity. cbn [bind].
    destruct (need as_u32s j "SPLIT") as [s| | |]; try reflexivity. cbn [bind].
    destruct (die_if _) as [[]| | |]; reflexivity.
  - assert (HT : forall X Y : out config, (match m_mode c with TNN_IV | TNN_V => X | _ => Y end) =
      (if match m_mode c with TNN_IV | TNN_V => true | _ => false end then X else Y)) by (intros; now destruct (m_mode c)).
    rewrite !HT. destruct (match m_mode c with TNN_IV | TNN_V => true | _ => false end); [|reflexivity].
    destruct (need as_u32 j "W_BIT") as [w| | |]; try reflexivity. cbn [bind].
    destruct (need as_u32s j "SPLIT") as [s| | |]; try reflexivity. cbn [bind].
    destruct (die_if _) as [[]| | |]; try reflexivity. cbn [bind].
    destruct s as [|[|[]|] [|[|[]|] []]]; reflexivity.
Qed.

Lemma analog_else j j' c c1 b : same_elsewhere j j' -> opt as_bool j' "d2d_var" true = Ok b ->
  is_int (m_mode c) = false -> apply_analog j c = Ok c1 -> apply_analog j' c = Ok (c1 <| d2d_var := b |>).
Proof.
  intros HK Hb Hi H. unfold apply_analog in *. rewrite Hb.
  rewrite !(need_same _ j j') by (apply HK; discriminate).
  rewrite (opt_same _ j j' "c2c_var"), (opt_same _ j j' "read_disturb"), (opt_same _ j j' "parasitics") by (apply HK; discriminate).
  destruct (need as_float j "HRS") as [h| | |]; try discriminate. cbn [bind] in *.
  destruct (need as_float j "LRS") as [l| | |]; try discriminate. cbn [bind] in *.
  destruct (need as_string j "adc_type") as [an| | |]; try discriminate. cbn [bind] in *.
  destruct (named adc_names an) as [at_| | |]; try discriminate. cbn [bind] in *. cbv zeta in *.
  destruct (die_if (fle h f0 || fle l f0)); try discriminate. cbn [bind] in *.
  rewrite (adc_else j j') by exact HK.
  destruct (apply_adc j _) as [ca| | |] eqn:Ea; try discriminate. cbn [bind] in *.
  assert (Em : m_mode ca = m_mode c).
  { apply adc_frame in Ea. destruct Ea as (? & ? & ? & ? & ? & ->). reflexivity. }
  destruct (die_if (negb _)); try discriminate. cbn [bind] in *.
  destruct (need as_float j "HRS_NOISE") as [hn| | |]; try discriminate. cbn [bind] in *.
  destruct (need as_float j "LRS_NOISE") as [ln| | |]; try discriminate. cbn [bind] in *.
  destruct (opt as_bool j "d2d_var" true) as [d2| | |]; try discriminate. cbn [bind] in *.
  destruct (opt as_bool j "c2c_var" false) as [c2| | |]; try discriminate. cbn [bind] in *. cbv zeta in *.
  change (m_mode (ca <| HRS_NOISE := hn |> <| LRS_NOISE := ln |> <| d2d_var := d2 |> <| c2c_var := c2 |>)) with (m_mode ca) in H.
  change (m_mode (ca <| HRS_NOISE := hn |> <| LRS_NOISE := ln |> <| d2d_var := b |> <| c2c_var := c2 |>)) with (m_mode ca).
  rewrite Em, Hi in *. cbn [andb die_if bind] in *.
  destruct (opt as_bool j "read_disturb" false) as [rd| | |]; try discriminate. cbn [bind] in *.
  destruct (opt as_bool j "parasitics" false) as [pa| | |]; try discriminate. cbn [bind] in *. cbv zeta in *.
  set (k := ca <| HRS_NOISE := hn |> <| LRS_NOISE := ln |> <| d2d_var := d2 |> <| c2c_var := c2 |> <| read_disturb := rd |> <| parasitics := pa |>) in *.
  change (ca <| HRS_NOISE := hn |> <| LRS_NOISE := ln |> <| d2d_var := b |> <| c2c_var := c2 |> <| read_disturb := rd |> <| parasitics := pa |>)
    with (k <| d2d_var := b |>). clearbody k.
  destruct (pa || rd).
  - destruct (need as_float j "V_read") as [v| | |]; try discriminate. cbn [bind] in *.
    destruct (die_if (fle f0 v)); try discriminate. cbn [bind] in *.
    change (k <| d2d_var := b |> <| V_read := v |>) with (k <| V_read := v |> <| d2d_var := b |>).
    rewrite (rd_else j j') by exact HK. unfold through at 1.
    destruct (apply_rd j (k <| V_read := v |>)) as [cr| | |]; try discriminate. cbn [bind] in *.
    rewrite (par_else j j') by exact HK. unfold through. now rewrite H.
  - cbn [bind] in *. rewrite (rd_else j j') by exact HK. unfold through at 1.
    destruct (apply_rd j k) as [cr| | |]; try discriminate. cbn [bind] in *.
    rewrite (par_else j j') by exact HK. unfold through. now rewrite H.
Qed.

(** The digital branch does not look at the key: it keeps the old value. *)
Lemma apply_else j j' c c1 b : same_elsewhere j j' -> opt as_bool j' "d2d_var" true = Ok b ->
  is_int (m_mode c1) = false -> apply_config j c = Ok c1 ->
  exists b', apply_config j' c = Ok (c1 <| d2d_var := b' |>).
Proof.
  intros HK Hb Hi H.
  assert (Em : forall x y z t, apply_bits j x = Ok y -> z = y <| verbose := t |> -> m_mode z = m_mode x).
  { intros x y z t E ->. apply bits_frame in E. destruct E as (? & ? & ? & ->). reflexivity. }
  unfold apply_config in *.
  rewrite !(need_same _ j j') by (apply HK; discriminate).
  destruct (need as_u32 j "M") as [m| | |]; try discriminate. cbn [bind] in *.
  destruct (need as_u32 j "N") as [n| | |]; try discriminate. cbn [bind] in *.
  destruct (die_if _); try discriminate. cbn [bind] in *.
  destruct (need as_string j "m_mode") as [mn| | |]; try discriminate. cbn [bind] in *.
  destruct (named mode_names mn) as [mm| | |]; try discriminate. cbn [bind] in *.
  destruct (need as_bool j "digital_only") as [dg| | |]; try discriminate. cbn [bind] in *. cbv zeta in *.
  set (k := c <| M := m |> <| N := n |> <| m_mode := mm |> <| digital_only := dg |>) in *.
  destruct dg.
  - cbn [bind] in *. exists (d2d_var c1). 
    assert (Ek : k = k <| d2d_var := d2d_var k |>) by (unfold k; destruct c; reflexivity).
    rewrite Ek. rewrite (bits_else j j') by exact HK. unfold through.
    destruct (apply_bits j k) as [cb| | |] eqn:Eb; try discriminate. cbn [bind] in *.
    destruct (need as_bool j "verbose") as [v| | |]; try discriminate. cbn [bind] in *. inversion H; subst c1.
    apply bits_frame in Eb. destruct Eb as (? & ? & ? & ->). destruct k; reflexivity.
  - destruct (apply_analog j k) as [ca| | |] eqn:Ea; try discriminate. cbn [bind] in *.
    assert (Hm : m_mode ca = mm).
    { apply apply_analog_M in Ea. destruct Ea as (_ & _ & ->). reflexivity. }
    destruct (apply_bits j ca) as [cb| | |] eqn:Eb; try discriminate. cbn [bind] in *.
    destruct (need as_bool j "verbose") as [v| | |]; try discriminate. cbn [bind] in *. inversion H; subst c1.
    pose proof (Em _ _ _ v Eb eq_refl) as E2. exists b.
    rewrite (analog_else j j' k ca b) by (auto; cbn; congruence). cbn [bind].
    rewrite (bits_else j j') by exact HK. unfold through. rewrite Eb. reflexivity.
Qed.

Lemma replace_like b w1 w2 r : like b w1 w2 -> both_like b (replace_xbar w1 r) (replace_xbar w2 r).
Proof.
  intros (Hc & Hx & He). unfold replace_xbar. rewrite Hc, d2d_new, Hx.
  destruct (xbar_new (wcfg w1)) as [x| | |]; try easy.
  unfold destroy. change (verbose (wcfg w1 <| d2d_var := b |>)) with (verbose (wcfg w1)).
  change (m_mode (wcfg w1 <| d2d_var := b |>)) with (m_mode (wcfg w1)).
  destruct (match wx w1 with Some _ => _ | None => _ end); cbn; try easy.
Qed.

Lemma d2d_nothing w j j' c h : same_elsewhere j j' ->
  (forall v, jat j' "d2d_var" = Some v -> exists b, v = JBool b) ->
  apply_config j (wcfg w) = Ok c -> is_int (m_mode c) = false -> Forall no_config h ->
  seen (run w (SetConfig (Parsed j) :: h)) = seen (run w (SetConfig (Parsed j') :: h)).
Proof.
  intros HK Hv H Hi HF.
  assert (exists b, opt as_bool j' "d2d_var" true = Ok b) as [b Hb].
  { unfold opt. destruct (jat j' "d2d_var") as [v|] eqn:E; [|eauto]. destruct (Hv v eq_refl) as [b ->]. cbn. eauto. }
  destruct (apply_else j j' _ _ _ HK Hb Hi H) as [b' H'].
  cbn [run]. cbn [step]. unfold set_config. destruct (destroy _ _) as [[]| | |]; try reflexivity. cbn [bind].
  change (wcfg (w <| wx := None |>)) with (wcfg w). rewrite H, H'. cbn [bind].
  assert (HL : like b' (w <| wx := None |> <| wdata := j |> <| wcfg := c |>)
    (w <| wx := None |> <| wdata := j' |> <| wcfg := c <| d2d_var := b' |> |>)) by (split; [reflexivity|split; reflexivity]).
  pose proof (replace_like b' _ _ RUnit HL) as HR. unfold both_like in HR.
  destruct (replace_xbar _ _) as [[w1 r1]| | |], (replace_xbar _ _) as [[w2 r2]| | |]; cbn [bind]; try easy.
  - destruct HR as [HL2 ->]. pose proof (run_like b' h _ _ HL2 HF) as HS. unfold both_like in HS.
    destruct (run w1 h) as [[w1' rs1]| | |], (run w2 h) as [[w2' rs2]| | |]; cbn; try easy.
    + destruct HS as [_ ->]. reflexivity.
    + now rewrite HS.
  - cbn. now rewrite HR.
Qed.
End D.
