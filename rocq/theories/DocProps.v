(** A load stores what the document says and rejects the others; an update is a reload (C68, C69). *)
From Coq Require Import String List ZArith Bool Arith Lia ZifyBool.
From RecordUpdate Require Import RecordSet.
From Verif Require Import Base Lib Machine Json Config Histogram Adc ReadDisturb Parasitics Mapper
  Crossbar Api Shape ConfigProofs Reach Spec NoDie CfgProps ApiProps DocSpec.
Import ListNotations RecordSetNotations.
Local Open Scope Z_scope.
Local Open Scope out_scope.

Section DocProps.
Context {MC : Machine}.

(** ** Single entries *)
Definition reads_as {A} (cv : json -> conv A) (is : json -> A -> Prop) : Prop := forall v a, is v a -> cv v = CVal a.

Lemma ra_flag : reads_as as_bool is_flag.
Proof. intros v a ->. reflexivity. Qed.
Lemma ra_count : reads_as as_u32 is_count.
Proof. intros v a [-> H]. cbn [as_u32]. unfold u32. now rewrite Z.mod_small. Qed.
Lemma ra_int32 : reads_as as_i32 is_int32.
Proof. intros v a [-> H]. cbn [as_i32]. unfold wrap32. rewrite Z.mod_small by lia. f_equal. lia. Qed.
Lemma ra_number : reads_as as_float is_number.
Proof. intros v a [(z & -> & ->)|(d & -> & ->)]; reflexivity. Qed.
Lemma convs_all {A B} (f : A -> conv B) (P : A -> B -> Prop) l l' : (forall x y, P x y -> f x = CVal y) ->
  Forall2 P l l' -> convs f l = CVal l'.
Proof. intros Hf. induction 1 as [|x y l l' H _ IH]; [reflexivity|]. cbn [convs]. now rewrite (Hf _ _ H), IH. Qed.
Lemma ra_counts : reads_as as_u32s is_counts.
Proof. intros v a (vs & -> & H). cbn [as_u32s]. eapply convs_all; [|exact H]. apply ra_count. Qed.
Lemma ra_ranges : reads_as as_dict is_ranges.
Proof.
  intros v a (vs & -> & H). cbn [as_dict]. eapply convs_all; [|exact H].
  intros [k x] [k' [p q]] [E (y & z & Ev & Hy & Hz)]. cbn [fst snd] in *. subst k' x. cbn [as_pair].
  now rewrite (ra_number _ _ Hy), (ra_number _ _ Hz).
Qed.
Lemma ra_str : reads_as as_string (fun v s => v = JStr s).
Proof. intros v a ->. reflexivity. Qed.

Lemma need_at {A} (cv : json -> conv A) is j k a : reads_as cv is ->
  (forall v, jat j k = Some v -> exists a, is v a) -> (need cv j k = Ok a <-> entry is j k a).
Proof.
  intros R T. unfold need, entry. destruct (jat j k) as [v|].
  - destruct (T v eq_refl) as [b Hb]. rewrite (R _ _ Hb). split.
    + intros E. inversion E; subst. eauto.
    + intros (v' & Ev & H). inversion Ev; subst v'. apply R in H. apply R in Hb. congruence.
  - split; [discriminate|]. now intros (v & E & _).
Qed.

Lemma opt_at {A} (cv : json -> conv A) is j k d a : reads_as cv is ->
  (forall v, jat j k = Some v -> exists a, is v a) -> (opt cv j k d = Ok a <-> entry_or is j k d a).
Proof.
  intros R T. unfold opt, entry_or. destruct (jat j k) as [v|].
  - destruct (T v eq_refl) as [b Hb]. rewrite (R _ _ Hb). split.
    + intros E. inversion E; subst. exact Hb.
    + intros H. apply R in H. apply R in Hb. congruence.
  - split; congruence.
Qed.

(** Never undefined behaviour or an exception. *)
Definition calm {A} (x : out A) : Prop := x = Died \/ exists a, x = Ok a.
Lemma calm_ok {A} (a : A) : calm (Ok a).
Proof. right. eauto. Qed.
Lemma calm_died {A} : calm (@Died A).
Proof. now left. Qed.
Lemma calm_bind {A B} (x : out A) (k : A -> out B) : calm x -> (forall a, calm (k a)) -> calm (bind x k).
Proof. intros [->|[a ->]] H; [now left|apply H]. Qed.
Lemma calm_die b : calm (die_if b).
Proof. destruct b; [now left|right; eexists; reflexivity]. Qed.
Lemma calm_named {A} (l : list (string * A)) s : calm (named l s).
Proof. unfold named. destruct (assoc s l); [apply calm_ok|apply calm_died]. Qed.
Lemma calm_need {A} (cv : json -> conv A) is j k : reads_as cv is ->
  (forall v, jat j k = Some v -> exists a, is v a) -> calm (need cv j k).
Proof.
  intros R T. unfold need. destruct (jat j k) as [v|]; [|apply calm_died].
  destruct (T v eq_refl) as [b Hb]. rewrite (R _ _ Hb). apply calm_ok.
Qed.
Lemma calm_opt {A} (cv : json -> conv A) is j k d : reads_as cv is ->
  (forall v, jat j k = Some v -> exists a, is v a) -> calm (opt cv j k d).
Proof.
  intros R T. unfold opt. destruct (jat j k) as [v|]; [|apply calm_ok].
  destruct (T v eq_refl) as [b Hb]. rewrite (R _ _ Hb). apply calm_ok.
Qed.

(** Names. *)
Lemma mode_named s m : named mode_names s = Ok m <-> s = mode_word m.
Proof.
  split.
  - intros H. apply named_in in H. cbn [mode_names In] in H.
    repeat (destruct H as [H|H]; [inversion H; reflexivity|]). destruct H.
  - intros ->. destruct m; reflexivity.
Qed.
Lemma adc_named s m : named adc_names s = Ok m <-> s = adc_word m.
Proof.
  split.
  - intros H. apply named_in in H. cbn [adc_names In] in H.
    repeat (destruct H as [H|H]; [inversion H; reflexivity|]). destruct H.
  - intros ->. destruct m; reflexivity.
Qed.
Lemma mitig_named s m : named mitig_names s = Ok m <-> s = mitig_word m.
Proof.
  split.
  - intros H. apply named_in in H. cbn [mitig_names In] in H.
    repeat (destruct H as [H|H]; [inversion H; reflexivity|]). destruct H.
  - intros ->. destruct m; reflexivity.
Qed.

Lemma entry_word {A} (word : A -> string) j k (a : A) : entry (is_word word) j k a <-> entry (fun v s => v = JStr s) j k (word a).
Proof. reflexivity. Qed.
Lemma entry_or_word {A} (word : A -> string) j k (d a : A) : (forall x y, word x = word y -> x = y) ->
  (entry_or (is_word word) j k d a <-> entry_or (fun v s => v = JStr s) j k (word d) (word a)).
Proof. intros I. unfold entry_or, is_word. destruct (jat j k); [reflexivity|]. split; [now intros ->|apply I]. Qed.
Lemma mitig_inj x y : mitig_word x = mitig_word y -> x = y.
Proof. destruct x, y; cbn; congruence. Qed.
Lemma calib_inj x y : calib_word x = calib_word y -> x = y.
Proof. destruct x, y; cbn; congruence. Qed.

(** ** Blocks *)
Section Typed.
Context (j : json) (HT : typed j).

Ltac key := let v := fresh in let E := fresh in intros v E; pattern v; eapply HT; [|exact E]; unfold kinds; cbn [In]; 
  repeat (first [left; reflexivity | right]).

Lemma n_M a : need as_u32 j "M" = Ok a <-> entry is_count j "M" a.
Proof. apply need_at; [apply ra_count|key]. Qed.
Lemma n_N a : need as_u32 j "N" = Ok a <-> entry is_count j "N" a.
Proof. apply need_at; [apply ra_count|key]. Qed.
Lemma n_W a : need as_u32 j "W_BIT" = Ok a <-> entry is_count j "W_BIT" a.
Proof. apply need_at; [apply ra_count|key]. Qed.
Lemma n_I a : need as_u32 j "I_BIT" = Ok a <-> entry is_count j "I_BIT" a.
Proof. apply need_at; [apply ra_count|key]. Qed.
Lemma n_split a : need as_u32s j "SPLIT" = Ok a <-> entry is_counts j "SPLIT" a.
Proof. apply need_at; [apply ra_counts|key]. Qed.
Lemma n_mode a : need as_string j "m_mode" = Ok (mode_word a) <-> entry (is_word mode_word) j "m_mode" a.
Proof. rewrite entry_word. apply need_at; [apply ra_str|key]. Qed.
Lemma n_adc a : need as_string j "adc_type" = Ok (adc_word a) <-> entry (is_word adc_word) j "adc_type" a.
Proof. rewrite entry_word. apply need_at; [apply ra_str|key]. Qed.
Lemma n_dig a : need as_bool j "digital_only" = Ok a <-> entry is_flag j "digital_only" a.
Proof. apply need_at; [apply ra_flag|key]. Qed.
Lemma n_verbose a : need as_bool j "verbose" = Ok a <-> entry is_flag j "verbose" a.
Proof. apply need_at; [apply ra_flag|key]. Qed.
Lemma n_num k a : In k ["HRS"; "LRS"; "HRS_NOISE"; "LRS_NOISE"; "V_read"; "w_res"; "t_read"; "read_disturb_mitigation_fp"; "read_disturb_update_tolerance"]%string ->
  need as_float j k = Ok a <-> entry is_number j k a.
Proof. intros H. apply need_at; [apply ra_number|]. cbn [In] in H. repeat (destruct H as [<-|H]; [key|]). destruct H. Qed.
Lemma n_res a : need as_i32 j "resolution" = Ok a <-> entry is_int32 j "resolution" a.
Proof. apply need_at; [apply ra_int32|key]. Qed.
Lemma n_dict a : need as_dict j "adc_calib_dict" = Ok a <-> entry is_ranges j "adc_calib_dict" a.
Proof. apply need_at; [apply ra_ranges|key]. Qed.
Lemma o_flag k d a : In k ["d2d_var"; "c2c_var"; "read_disturb"; "parasitics"; "adc_profile"]%string ->
  opt as_bool j k d = Ok a <-> entry_or is_flag j k d a.
Proof. intros H. apply opt_at; [apply ra_flag|]. cbn [In] in H. repeat (destruct H as [<-|H]; [key|]). destruct H. Qed.
Lemma o_bin d a : opt as_i32 j "adc_profile_bin_size" d = Ok a <-> entry_or is_int32 j "adc_profile_bin_size" d a.
Proof. apply opt_at; [apply ra_int32|key]. Qed.
Lemma o_freq d a : opt as_u32 j "read_disturb_update_freq" d = Ok a <-> entry_or is_count j "read_disturb_update_freq" d a.
Proof. apply opt_at; [apply ra_count|key]. Qed.
Lemma o_calib a : opt as_string j "adc_calib_mode" "MAX"%string = Ok (calib_word a) <-> entry_or (is_word calib_word) j "adc_calib_mode" CAL_MAX a.
Proof. rewrite (entry_or_word _ _ _ _ _ calib_inj). apply opt_at; [apply ra_str|key]. Qed.
Lemma o_mitig a : opt as_string j "read_disturb_mitigation_strategy" "OFF"%string = Ok (mitig_word a) <->
  entry_or (is_word mitig_word) j "read_disturb_mitigation_strategy" MIT_OFF a.
Proof. rewrite (entry_or_word _ _ _ _ _ mitig_inj). apply opt_at; [apply ra_str|key]. Qed.

Ltac c_need l := eapply calm_need; [apply l|key].
Ltac c_opt l := eapply calm_opt; [apply l|key].
Ltac c_step := repeat (first [apply calm_die | apply calm_named | apply calm_ok | apply calm_died | apply calm_bind; [|intros ?]
  | c_need ra_count | c_need ra_str | c_need ra_flag | c_need ra_number | c_need ra_int32 | c_need ra_ranges | c_need ra_counts
  | c_opt ra_flag | c_opt ra_int32 | c_opt ra_count | c_opt ra_str]).

Lemma calm_adc c : calm (apply_adc j c).
Proof.
  unfold apply_adc. destruct (adc_eqb _ _); [apply calm_ok|]. cbv zeta. c_step.
  - destruct (String.eqb a1 "MAX"); [apply calm_ok|]. destruct (String.eqb a1 "CALIB"); [|apply calm_died].
    c_step. destruct a2; [apply calm_died|apply calm_ok].
  - destruct a3; c_step.
Qed.
Lemma calm_rd c : calm (apply_rd j c).
Proof. unfold apply_rd. destruct (negb _); [apply calm_ok|]. c_step. destruct a3; c_step. Qed.
Lemma calm_par c : calm (apply_par j c).
Proof. unfold apply_par. destruct (negb _); [apply calm_ok|]. c_step. destruct (feq _ _); apply calm_ok. Qed.
Lemma calm_analog c : calm (apply_analog j c).
Proof.
  unfold apply_analog. c_step; try apply calm_adc; try apply calm_rd; try apply calm_par.
  destruct (_ || _); c_step.
Qed.
Lemma calm_bits c : calm (apply_bits j c).
Proof.
  unfold apply_bits. destruct (is_int _); [c_step|]. destruct (m_mode c); c_step;
    repeat match goal with |- calm (match ?s with _ => _ end) => destruct s; try apply calm_died; try apply calm_ok end.
Qed.
Lemma calm_config c : calm (apply_config j c).
Proof. unfold apply_config. c_step; [|apply calm_bits]. destruct a4; [apply calm_ok|apply calm_analog]. Qed.

(** *** What was read *)
Definition adc_part (c : config) : Prop :=
  entry is_int32 j "resolution" (resolution c) /\
  entry_or (is_word calib_word) j "adc_calib_mode" CAL_MAX (adc_calib_mode c) /\
  (adc_calib_mode c = CAL_CALIB -> entry is_ranges j "adc_calib_dict" (adc_calib_dict c) /\ adc_calib_dict c <> []) /\
  entry_or is_flag j "adc_profile" false (adc_profile c) /\
  (adc_profile c = true -> entry_or is_int32 j "adc_profile_bin_size" 10 (bin_size c)).

Lemma adc_says a b : apply_adc j a = Ok b -> adc_type b = adc_type a /\ (adc_type a <> INF_ADC -> adc_part b).
Proof.
  intros H. pose proof (adc_frame _ _ _ H) as (k1 & k2 & k3 & k4 & k5 & Eb).
  split; [subst b; destruct a; reflexivity|]. clear Eb. intros Ha.
  unfold apply_adc in H. assert (E : adc_eqb (adc_type a) INF_ADC = false) by (destruct (adc_type a); [congruence|reflexivity|reflexivity]).
  rewrite E in H. clear E. inv_as H u U. clear U. inv_as H r R. cbv zeta in H. inv_as H cm C. inv_as H c1 C1. inv_as H p P.
  apply n_res in R. apply o_flag in P; [|cbn; tauto].
  assert (Hc : exists m d, cm = calib_word m /\ c1 = a <| resolution := r |> <| adc_calib_mode := m |> <| adc_calib_dict := d |> /\
     (m = CAL_CALIB -> entry is_ranges j "adc_calib_dict" d /\ d <> [])).
  { destruct (String.eqb cm "MAX") eqn:E1.
    - apply String.eqb_eq in E1. exists CAL_MAX, (adc_calib_dict a). split; [exact E1|].
      split; [inversion C1; destruct a; reflexivity|discriminate].
    - destruct (String.eqb cm "CALIB") eqn:E2; [|discriminate]. apply String.eqb_eq in E2. inv_as C1 d D. destruct d as [|x d]; [discriminate|].
      exists CAL_CALIB, (x :: d). split; [exact E2|]. split; [inversion C1; destruct a; reflexivity|].
      intros _. split; [now apply n_dict|discriminate]. }
  destruct Hc as (m & d & -> & -> & Hd). apply o_calib in C. clear C1.
  destruct p.
  - inv_as H bs B. apply o_bin in B. inversion H. unfold adc_part. destruct a; cbn. tauto.
  - inversion H. unfold adc_part. destruct a; cbn. repeat split; try apply Hd; try assumption. discriminate.
Qed.

Definition rd_part (c : config) : Prop :=
  entry is_number j "t_read" (t_read c) /\
  entry_or is_count j "read_disturb_update_freq" 1 (update_freq c) /\
  entry_or (is_word mitig_word) j "read_disturb_mitigation_strategy" MIT_OFF (mitigation c) /\
  (mitigation c = SOFTWARE -> entry is_number j "read_disturb_mitigation_fp" (mitigation_fp c)) /\
  (mitigation c = CELL_BASED -> entry is_number j "read_disturb_update_tolerance" (tolerance c)).

Lemma rd_says a b : apply_rd j a = Ok b -> read_disturb a = true -> rd_part b.
Proof.
  intros H Hr. apply rd_inv in H. destruct H as [[H _]|(_ & _ & t & u & ms & mt & T & U & Ms & Mt & H)]; [congruence|].
  apply mitig_named in Mt. subst ms. apply o_mitig in Ms. apply o_freq in U. apply n_num in T; [|cbn; tauto]. unfold rd_part.
  destruct mt.
  - destruct H as (fp & Fp & _ & ->). apply n_num in Fp; [|cbn; tauto]. destruct a; cbn. repeat split; auto; discriminate.
  - destruct H as (fp & Fp & _ & _ & ->). apply n_num in Fp; [|cbn; tauto]. destruct a; cbn. repeat split; auto; discriminate.
  - subst b. destruct a; cbn. repeat split; auto; discriminate.
Qed.

Definition ana_part (c : config) : Prop :=
     entry is_number j "HRS" (HRS c) /\ entry is_number j "LRS" (LRS c) /\
     entry is_number j "HRS_NOISE" (HRS_NOISE c) /\ entry is_number j "LRS_NOISE" (LRS_NOISE c) /\
     entry (is_word adc_word) j "adc_type" (adc_type c) /\
     entry_or is_flag j "d2d_var" true (d2d_var c) /\ entry_or is_flag j "c2c_var" false (c2c_var c) /\
     entry_or is_flag j "read_disturb" false (read_disturb c) /\
     (adc_type c <> INF_ADC -> adc_part c) /\
     (read_disturb c = true -> entry is_number j "V_read" (V_read c) /\ rd_part c) /\
     exists p, entry_or is_flag j "parasitics" false p /\
       (p = true -> entry is_number j "V_read" (V_read c) /\ fle f0 (V_read c) = false /\ entry is_number j "w_res" (w_res c)) /\
       parasitics c = p && negb (feq (w_res c) f0).

Lemma ana_says a b : apply_analog j a = Ok b -> ana_part b /\ digital_only b = digital_only a.
Proof.
  intros H. apply analog_inv in H.
  destruct H as (h & l & at_ & y & hn & ln & dv & cv & rd & pa & v1 & r1 & Eh & El & _ & _ & (an & Ean & Eat) & Ea & _ & Ehn & Eln & Edv & Ecv & _ & Erd & Epa & Hv & Er & Ep).
  apply adc_named in Eat. subst an. apply n_adc in Ean.
  apply n_num in Eh, El, Ehn, Eln; try (cbn; tauto). apply o_flag in Edv, Ecv, Erd, Epa; try (cbn; tauto).
  pose proof (adc_says _ _ Ea) as [Ty A]. cbn [adc_type] in A.
  assert (Y : HRS y = h /\ LRS y = l /\ adc_type y = at_ /\ digital_only y = digital_only a).
  { apply adc_frame in Ea. destruct Ea as (k1 & k2 & k3 & k4 & k5 & ->). destruct a; lazy; tauto. }
  replace (adc_type (a <| HRS := h |> <| LRS := l |> <| adc_type := at_ |>)) with at_ in A by (destruct a; reflexivity).
  clear Ea Ty. destruct Y as (Y1 & Y2 & Y3 & Y4).
  assert (Hvr : rd = true \/ pa = true -> entry is_number j "V_read" v1 /\ fle f0 v1 = false).
  { intros O. assert (E : pa || rd = true) by (destruct O; subst; [apply orb_true_r|reflexivity]). rewrite E in Hv.
    destruct Hv as [Hv1 Hv2]. split; [|exact Hv2]. apply n_num in Hv1; [exact Hv1|cbn; tauto]. }
  set (z := y <| HRS_NOISE := hn |> <| LRS_NOISE := ln |> <| d2d_var := dv |> <| c2c_var := cv |>
       <| read_disturb := rd |> <| parasitics := pa |> <| V_read := v1 |>) in *.
  assert (Z : HRS z = h /\ LRS z = l /\ adc_type z = at_ /\ digital_only z = digital_only a /\ HRS_NOISE z = hn /\ LRS_NOISE z = ln /\
     d2d_var z = dv /\ c2c_var z = cv /\ read_disturb z = rd /\ parasitics z = pa /\ V_read z = v1 /\ (at_ <> INF_ADC -> adc_part z)).
  { subst z. destruct y; cbn in *. subst. repeat (split; [reflexivity|]). exact A. }
  destruct Z as (Z1 & Z2 & Z3 & Z4 & Z5 & Z6 & Z7 & Z8 & Z9 & Z10 & Z11 & Z12). clearbody z. clear Hv A Y1 Y2 Y3 Y4 y.
  pose proof (rd_says _ _ Er) as RD. rewrite Z9 in RD.
  assert (R : HRS r1 = h /\ LRS r1 = l /\ adc_type r1 = at_ /\ digital_only r1 = digital_only a /\ HRS_NOISE r1 = hn /\ LRS_NOISE r1 = ln /\
     d2d_var r1 = dv /\ c2c_var r1 = cv /\ read_disturb r1 = rd /\ parasitics r1 = pa /\ V_read r1 = v1 /\ (at_ <> INF_ADC -> adc_part r1)).
  { apply rd_frame in Er. destruct Er as (t & u & m & fp & tol & ->). clear RD. destruct z; cbn in *. subst. repeat (split; [reflexivity|]). exact Z12. }
  clear Er Z1 Z2 Z3 Z4 Z5 Z6 Z7 Z8 Z9 Z10 Z11 Z12 z.
  destruct R as (Z1 & Z2 & Z3 & Z4 & Z5 & Z6 & Z7 & Z8 & Z9 & Z10 & Z11 & Z12).
  apply par_inv in Ep. destruct Ep as [[Hp ->]|(Hp & w & W & ->)].
  - split; [|exact Z4]. unfold ana_part. rewrite Z1, Z2, Z3, Z5, Z6, Z7, Z8, Z9, Z10, Z11.
    refine (conj Eh (conj El (conj Ehn (conj Eln (conj Ean (conj Edv (conj Ecv (conj Erd (conj Z12 (conj _ _)))))))))).
    + intros Hr. split; [apply Hvr; auto|auto].
    + exists pa. split; [exact Epa|]. rewrite Hp in Z10. subst pa. split; [discriminate|reflexivity].
  - apply n_num in W; [|cbn; tauto]. unfold ana_part, adc_part, rd_part in *. destruct r1; cbn in *. subst.
    split; [|reflexivity].
    refine (conj Eh (conj El (conj Ehn (conj Eln (conj Ean (conj Edv (conj Ecv (conj Erd (conj Z12 (conj _ _)))))))))).
    + intros Hr. split; [apply Hvr; auto|auto].
    + exists true. split; [exact Epa|]. split; [|reflexivity].
      intros _. destruct (Hvr (or_intror eq_refl)). auto.
Qed.

Definition bits_part (c : config) : Prop :=
  (is_int (m_mode c) = true ->
     entry is_count j "W_BIT" (W_BIT c) /\ entry is_count j "I_BIT" (I_BIT c) /\ entry is_counts j "SPLIT" (SPLIT c)) /\
  (m_mode c = TNN_IV \/ m_mode c = TNN_V -> entry is_count j "W_BIT" (W_BIT c) /\ entry is_counts j "SPLIT" (SPLIT c)) /\
  (is_int (m_mode c) = false -> m_mode c <> TNN_IV -> m_mode c <> TNN_V -> SPLIT c = [0]).

Lemma bits_says a b : apply_bits j a = Ok b -> bits_part b.
Proof.
  intros H. unfold bits_part. assert (Em : m_mode b = m_mode a).
  { apply bits_frame in H. destruct H as (w & i & s & ->). destruct a; reflexivity. }
  rewrite !Em. unfold apply_bits in H.
  assert (Haux : forall (s : list Z) (c1 c2 : config),
    (match s with [1; 1] => Ok c1 | _ => Died end) = Ok c2 -> c2 = c1).
  { intros s0 c1 c2 E. repeat match type of E with context [match ?s with _ => _ end] => destruct s; try discriminate E end.
    inversion E; auto. }
  destruct (m_mode a) eqn:Ea; cbn [is_int] in H |- *;
    try (inv_as H w W; inv_as H i I; inv_as H s S; inv_as H u U; apply n_W in W; apply n_I in I; apply n_split in S;
         inversion H; destruct a; cbn; split; [tauto|split; [intros [?|?]; discriminate|discriminate]]);
    try (inversion H; destruct a; cbn; split; [discriminate|split; [intros [?|?]; discriminate|reflexivity]]);
    inv_as H w W; inv_as H s S; inv_as H u U; apply Haux in H; apply n_W in W; apply n_split in S; rewrite H; destruct a; cbn;
    (split; [discriminate|split; [tauto|intros _ X Y; exfalso; solve [now apply X | now apply Y]]]).
Qed.

Lemma config_says a c : apply_config j a = Ok c -> says j c.
Proof.
  intros H. apply config_inv in H.
  destruct H as (m & n & mm & dig & a1 & b1 & v & Hm & Hn & _ & _ & (mn & Emn & Emm) & Hdig & Ha & Hb & Hv & ->).
  apply n_M in Hm. apply n_N in Hn. apply mode_named in Emm. subst mn. apply n_mode in Emn. apply n_dig in Hdig. apply n_verbose in Hv.
  assert (A : M a1 = m /\ N a1 = n /\ m_mode a1 = mm /\ digital_only a1 = dig /\ (dig = false -> ana_part a1)).
  { destruct dig.
    - subst a1. destruct a; cbn. repeat (split; [reflexivity|]). discriminate.
    - pose proof (ana_says _ _ Ha) as [P D]. apply apply_analog_M in Ha. destruct Ha as (A1 & A2 & A3).
      exact (conj A1 (conj A2 (conj A3 (conj D (fun _ => P))))). }
  destruct A as (A1 & A2 & A3 & A4 & A5). clear Ha.
  pose proof (bits_says _ _ Hb) as B. apply bits_frame in Hb. destruct Hb as (w & i & s & ->).
  unfold says. unfold bits_part, ana_part, adc_part, rd_part in *. destruct a1; cbn in *. subst.
  destruct B as (B1 & B2 & B3).
  refine (conj Hm (conj Hn (conj Emn (conj Hdig (conj Hv (conj B1 (conj B2 (conj B3 A5)))))))).
Qed.

(** *** What is accepted *)
Lemma adc_takes a c : adc_type a = adc_type c -> resolution a <> -1 -> (adc_type c <> INF_ADC -> adc_part c) ->
  exists b, apply_adc j a = Ok b.
Proof.
  intros Ea Hr Hc. unfold apply_adc. rewrite Ea. destruct (adc_eqb (adc_type c) INF_ADC) eqn:E; [eauto|].
  destruct Hc as (R & C & D & P & B). { intros X. rewrite X in E. discriminate. }
  replace (resolution a =? -1) with false by lia. apply n_res in R. apply o_calib in C. apply o_flag in P; [|cbn; tauto].
  rewrite R, C, P. cbn [bind die_if]. cbv zeta.
  assert (H : exists c1, (if String.eqb (calib_word (adc_calib_mode c)) "MAX"
     then Ok (a <| resolution := resolution c |> <| adc_calib_mode := CAL_MAX |>)
     else if String.eqb (calib_word (adc_calib_mode c)) "CALIB"
     then d <- need as_dict j "adc_calib_dict" ;;
        match d with [] => Died | _ => Ok (a <| resolution := resolution c |> <| adc_calib_mode := CAL_CALIB |> <| adc_calib_dict := d |>) end
     else Died) = Ok c1).
  { destruct (adc_calib_mode c); cbn [calib_word String.eqb Ascii.eqb Bool.eqb]; [eauto|].
    destruct (D eq_refl) as [D1 D2]. apply n_dict in D1. rewrite D1. cbn [bind]. destruct (adc_calib_dict c); [congruence|eauto]. }
  destruct H as [c1 ->]. cbn [bind]. destruct (adc_profile c).
  - apply (fun H => proj2 (o_bin _ _) (H eq_refl)) in B. rewrite B. cbn [bind]. eauto.
  - eauto.
Qed.

Lemma rd_takes a c : read_disturb a = read_disturb c -> is_int (m_mode a) = is_int (m_mode c) ->
  (read_disturb c = true -> is_int (m_mode c) = false /\ rd_part c /\
     (mitigation c = SOFTWARE -> flt (mitigation_fp c) (f_of_Z 1) = false) /\
     (mitigation c = CELL_BASED -> flt (tolerance c) f0 = false /\ flt (f_of_Z 1) (tolerance c) = false)) ->
  exists b, apply_rd j a = Ok b.
Proof.
  intros Er Em Hc. unfold apply_rd. rewrite Er, Em. destruct (read_disturb c); cbn [negb]; [|eauto].
  destruct (Hc eq_refl) as (Hi & (T & U & Mt & S & C) & K1 & K2). rewrite Hi.
  apply n_num in T; [|cbn; tauto]. apply o_freq in U. apply o_mitig in Mt. rewrite T, U, Mt. cbn [bind die_if].
  rewrite (proj2 (mitig_named _ _) eq_refl). cbn [bind]. cbv zeta. destruct (mitigation c).
  - pose proof (proj2 (n_num "read_disturb_mitigation_fp" _ ltac:(cbn; tauto)) (S eq_refl)) as S'. rewrite S'. cbn [bind]. rewrite K1 by reflexivity. cbn [bind die_if]. eauto.
  - pose proof (proj2 (n_num "read_disturb_update_tolerance" _ ltac:(cbn; tauto)) (C eq_refl)) as S'. rewrite S'. cbn [bind].
    destruct (K2 eq_refl) as [-> ->]. cbn [bind die_if orb]. eauto.
  - eauto.
Qed.

Lemma adc_fits m a : (a = SYM_RANGE_ADC -> ~ In m single_ended) -> (a = POS_RANGE_ONLY_ADC -> In m single_ended) -> adc_ok m a = true.
Proof.
  intros H1 H2. destruct a.
  - destruct m; reflexivity.
  - specialize (H1 eq_refl). destruct m; try reflexivity; exfalso; apply H1; unfold single_ended; cbn; tauto.
  - specialize (H2 eq_refl). unfold single_ended in H2. cbn in H2. repeat destruct H2 as [<-|H2]; try reflexivity. destruct H2.
Qed.

Lemma ana_takes a c : m_mode a = m_mode c -> digital_only c = false -> resolution a <> -1 -> ana_part c -> supported c ->
  exists b, apply_analog j a = Ok b.
Proof.
  intros Em Hd Hr (Eh & El & Ehn & Eln & Ean & Edv & Ecv & Erd & A & R & p & Epa & P & Hp) (_ & _ & _ & _ & S).
  destruct (S Hd) as (S1 & S2 & S3 & S4 & S5 & S6 & S7). clear S.
  apply n_num in Eh, El, Ehn, Eln; try (cbn; tauto). apply o_flag in Edv, Ecv, Erd, Epa; try (cbn; tauto). apply n_adc in Ean.
  unfold apply_analog. rewrite Eh, El, Ean. cbn [bind]. rewrite (proj2 (adc_named _ _) eq_refl). cbn [bind]. cbv zeta.
  rewrite S1, S2. cbn [orb die_if bind].
  destruct (adc_takes (a <| HRS := HRS c |> <| LRS := LRS c |> <| adc_type := adc_type c |>) c) as [y Ey].
  { destruct a; reflexivity. } { destruct a; exact Hr. } { exact A. }
  rewrite Ey. cbn [bind].
  assert (Y : m_mode y = m_mode c /\ adc_type y = adc_type c).
  { apply adc_frame in Ey. destruct Ey as (k1 & k2 & k3 & k4 & k5 & ->). destruct a; lazy in Em |- *. split; [exact Em|reflexivity]. }
  destruct Y as [Y1 Y2]. rewrite Y1, Y2, (adc_fits _ _ S3 S4), Ehn, Eln, Edv, Ecv. cbn [negb die_if bind].
  set (y1 := y <| HRS_NOISE := HRS_NOISE c |> <| LRS_NOISE := LRS_NOISE c |> <| d2d_var := d2d_var c |> <| c2c_var := c2c_var c |>).
  assert (Y3 : m_mode y1 = m_mode c) by (subst y1; destruct y; exact Y1). rewrite Y3.
  assert (X : is_int (m_mode c) && (d2d_var c && c2c_var c) = false) by (destruct (is_int (m_mode c)); [now apply S5|reflexivity]).
  rewrite X, Erd, Epa. cbn [die_if bind].
  set (y2 := y1 <| read_disturb := read_disturb c |> <| parasitics := p |>).
  assert (Hz : exists z, (if p || read_disturb c then v <- need as_float j "V_read" ;; _ <- die_if (fle f0 v) ;; Ok (y2 <| V_read := v |>) else Ok y2) = Ok z
    /\ m_mode z = m_mode c /\ read_disturb z = read_disturb c /\ parasitics z = p).
  { assert (Hv : p || read_disturb c = true -> entry is_number j "V_read" (V_read c) /\ fle f0 (V_read c) = false).
    { intros H. destruct p; [split; apply P; reflexivity|]. cbn [orb] in H. split; [apply R; exact H|apply S6; exact H]. }
    destruct (p || read_disturb c).
    - destruct (Hv eq_refl) as [H1 H2]. apply n_num in H1; [|cbn; tauto]. rewrite H1. cbn [bind]. rewrite H2. cbn [bind die_if].
      eexists. split; [reflexivity|]. subst y2. clearbody y1. destruct y1; cbn in *. auto.
    - eexists. split; [reflexivity|]. subst y2. clearbody y1. destruct y1; cbn in *. auto. }
  destruct Hz as (z & -> & Z1 & Z2 & Z3). cbn [bind].
  destruct (rd_takes z c) as [zz Ezz]; [exact Z2|now rewrite Z1| |].
  { intros H. destruct (S6 H) as (G1 & G2 & G3 & G4). destruct (R H) as [R1 R2]. auto. }
  rewrite Ezz. cbn [bind]. assert (Z4 : parasitics zz = p).
  { apply rd_frame in Ezz. destruct Ezz as (t & u & m & fp & tol & ->). destruct z; exact Z3. }
  unfold apply_par. rewrite Z4. destruct p; cbn [negb]; [|eauto].
  destruct (P eq_refl) as (_ & _ & W). apply n_num in W; [|cbn; tauto]. rewrite W. cbn [bind]. cbv zeta. destruct (feq _ _); eauto.
Qed.

Lemma bits_takes a c : m_mode a = m_mode c -> bits_part c -> supported c -> exists b, apply_bits j a = Ok b.
Proof.
  intros Em (B1 & B2 & B3) (_ & _ & S1 & S2 & _). unfold apply_bits. rewrite Em.
  destruct (is_int (m_mode c)).
  - destruct (B1 eq_refl) as (W & I & S). destruct (S1 eq_refl) as [W1 I1]. apply n_W in W. apply n_I in I. apply n_split in S.
    rewrite W, I, S. cbn [bind]. replace ((W_BIT c <=? 0) || (I_BIT c <=? 0)) with false by lia. cbn [die_if bind]. eauto.
  - destruct (m_mode c) eqn:E; eauto.
    + destruct (B2 (or_introl eq_refl)) as [W S]. apply n_W in W. apply n_split in S. rewrite W, S. cbn [bind].
      destruct (S2 (or_introl eq_refl)) as [-> ->]. cbn. eauto.
    + destruct (B2 (or_intror eq_refl)) as [W S]. apply n_W in W. apply n_split in S. rewrite W, S. cbn [bind].
      destruct (S2 (or_intror eq_refl)) as [-> ->]. cbn. eauto.
Qed.

Lemma config_takes a c : says j c -> supported c -> resolution a <> -1 -> exists b, apply_config j a = Ok b.
Proof.
  intros (Hm & Hn & Hmm & Hd & Hv & B1 & B2 & B3 & A) S Hr. pose proof S as (S1 & S2 & _).
  apply n_M in Hm. apply n_N in Hn. apply n_mode in Hmm. apply n_dig in Hd. apply n_verbose in Hv.
  unfold apply_config. rewrite Hm, Hn. cbn [bind]. replace ((M c <=? 0) || (N c <=? 0)) with false by lia. cbn [bind die_if].
  rewrite Hmm. cbn [bind]. rewrite (proj2 (mode_named _ _) eq_refl). cbn [bind]. rewrite Hd. cbn [bind]. cbv zeta.
  set (a0 := a <| M := M c |> <| N := N c |> <| m_mode := m_mode c |> <| digital_only := digital_only c |>).
  assert (Ha1 : exists a1, (if digital_only c then Ok a0 else apply_analog j a0) = Ok a1 /\ m_mode a1 = m_mode c).
  { destruct (digital_only c) eqn:Ed.
    - exists a0. split; [reflexivity|]. subst a0. destruct a; reflexivity.
    - destruct (ana_takes a0 c) as [b Eb]; [subst a0; destruct a; reflexivity|exact Ed|subst a0; destruct a; exact Hr|exact (A eq_refl)|exact S|].
      exists b. split; [exact Eb|]. apply apply_analog_M in Eb. destruct Eb as (_ & _ & Eb). rewrite Eb. subst a0. destruct a; reflexivity. }
  destruct Ha1 as (a1 & -> & E1). cbn [bind].
  destruct (bits_takes a1 c E1) as [b1 Eb]; [exact (conj B1 (conj B2 B3))|exact S|]. rewrite Eb. cbn [bind]. rewrite Hv. cbn [bind]. eauto.
Qed.
End Typed.

(** ** Loads *)
Lemma load_says : forall w j w' r, typed j -> step w (SetConfig (Parsed j)) = Ok (w', r) -> says j (wcfg w') /\ wdata w' = j.
Proof.
  intros w j w' r HT H. cbn [step set_config] in H. inv_as H u U. inv_as H c C.
  pose proof (replace_cfg _ _ _ _ H) as E. rewrite E. cbn. split; [now apply (config_says j HT) in C|].
  unfold replace_xbar in H. destruct (xbar_new _); try discriminate; [inv_as H u1 U1|]; inversion H; reflexivity.
Qed.

Lemma xbar_new_live c : xbar_new c <> Died.
Proof.
  assert (B : forall A B (x : out A) (k : A -> out B), x <> Died -> (forall a, k a <> Died) -> bind x k <> Died).
  { intros A B x k Hx Hk. destruct x; cbn; try discriminate; auto. }
  assert (N : forall A (x : out A), nd x -> x <> Died) by (intros A x [H _]; exact H).
  unfold xbar_new. apply B; [|discriminate]. unfold mapper_new. cbv zeta.
  apply B; [|intros a; apply B; [|intros ps; apply B; [|intros st; apply B; [|discriminate]]]].
  - unfold adc_new. destruct (d_trunc _); [|discriminate]. destruct (in32 _); [|discriminate].
    destruct (adc_type c); try discriminate. apply N. apply nd_bind; [apply nd_chk32|intros; apply nd_Ok].
  - destruct (_ && _); [|discriminate]. apply B; [|discriminate]. unfold par_new. destruct (wenc_of _); discriminate.
  - destruct (uses_shift _); [|discriminate]. apply N. apply nd_mapM. intros x. apply nd_bind; [apply nd_ones|intros; apply nd_Ok].
  - destruct (m_mode c); try discriminate. apply N. apply nd_bind; [|intros; apply nd_Ok].
    apply nd_forN. intros k d _. repeat (apply nd_bind; [auto with nd|intros]); auto with nd.
    unfold mul32. apply nd_chk32.
Qed.

Lemma load_rejects : forall w j, typed j -> resolution (wcfg w) <> -1 ->
  wx w = None \/ verbose (wcfg w) = false \/ is_int (m_mode (wcfg w)) = true ->
  (step w (SetConfig (Parsed j)) = Died <-> ~ exists c, says j c /\ supported c).
Proof.
  intros w j HT Hr Hd. cbn [step]. unfold set_config.
  assert (D : destroy (wcfg w) (wx w) = Ok tt).
  { unfold destroy. destruct (wx w); [|reflexivity]. destruct Hd as [?|[->| ->]]; [discriminate|reflexivity|].
    cbn [negb]. now rewrite andb_false_r. }
  rewrite D. cbn [bind]. change (wcfg (w <|wx := None|>)) with (wcfg w). split.
  - intros H (c & Hs & Hc). destruct (config_takes j HT (wcfg w) c Hs Hc Hr) as [b Eb]. rewrite Eb in H. cbn [bind] in H.
    unfold replace_xbar in H. cbn [wcfg wx] in H.
    match type of H with match xbar_new ?c with _ => _ end = _ => pose proof (xbar_new_live c); destruct (xbar_new c) end; try discriminate; congruence.
  - intros H. destruct (calm_config j HT (wcfg w)) as [->|[c Ec]]; [reflexivity|].
    exfalso. apply H. exists c. split; [now apply (config_says j HT) in Ec|now apply apply_supported in Ec].
Qed.

(** ** Updates *)
Lemma upd_merged kvs : forall j md rc j' md' rc', NoDup (map fst kvs) -> update_keys kvs j md rc = Ok (j', md', rc') ->
  (forall k, match assoc k kvs with
    | Some v => (same_value j (k, v) -> jat j' k = jat j k) /\ (~ same_value j (k, v) -> jat j' k = Some v)
    | None => jat j' k = jat j k
    end) /\ (~ Forall (same_value j) kvs -> md' = true).
Proof.
  induction kvs as [|[k0 v0] r IH]; intros j md rc j' md' rc' ND H.
  - inversion H; subst. split; [reflexivity|]. intros X. exfalso. apply X. constructor.
  - inversion ND as [|? ? Hn ND']; subst. cbn [fst] in Hn.
    assert (Hk0 : assoc k0 r = None).
    { clear -Hn. induction r as [|[k1 v1] r IH]; [reflexivity|]. cbn [map fst In] in Hn. cbn [assoc].
      destruct (String.eqb k0 k1) eqn:E; [apply String.eqb_eq in E; subst; exfalso; apply Hn; auto|]. apply IH. tauto. }
    destruct (same_value_dec j (k0, v0)) as [S|S].
    + rewrite changed_false in H by assumption. destruct (IH _ _ _ _ _ _ ND' H) as [A B]. split.
      * intros k. cbn [assoc]. destruct (String.eqb k k0) eqn:E; [|apply A]. apply String.eqb_eq in E. subst k0.
        specialize (A k). rewrite Hk0 in A. split; [auto|contradiction].
      * intros X. apply B. intros Y. apply X. now constructor.
    + rewrite changed_true in H by assumption. destruct (jset j k0 v0) as [j1|] eqn:Ej; [|discriminate].
      destruct (IH _ _ _ _ _ _ ND' H) as [A B]. split.
      * intros k. specialize (A k). cbn [assoc]. pose proof (jat_jset _ _ _ _ k Ej) as J.
        destruct (String.eqb k k0) eqn:E.
        -- apply String.eqb_eq in E. subst k0. rewrite Hk0 in A. split; [contradiction|]. intros _. now rewrite A.
        -- destruct (assoc k r); [|now rewrite A].
           assert (Q : same_value j1 (k, j0) <-> same_value j (k, j0)).
           { eapply same_value_other; [exact Ej|]. cbn [fst]. intros X. subst k. now rewrite String.eqb_refl in E. }
           rewrite <- Q. now rewrite <- J.
      * intros _. apply update_keys_spec in H. now apply H.
Qed.

Lemma update_doc : forall w x u w' r, wx w = Some x -> NoDup (map fst (jitems u)) ->
  step w (UpdateConfig (UJson u)) = Ok (w', r) ->
  merged same_value (wdata w) u (wdata w') /\
  (~ Forall (same_value (wdata w)) (jitems u) -> apply_config (wdata w') (wcfg w) = Ok (wcfg w')).
Proof.
  intros w x u w' r Hx ND H. cbn [step] in H. unfold update_config in H. rewrite Hx in H.
  inv_as H p P. destruct p as [[[j c] up] rc]. unfold update_cfg in P. inv_as P q Q. destruct q as [[j1 md] rc1].
  destruct (upd_merged _ _ _ _ _ _ _ ND Q) as [A B].
  assert (E : wdata w' = j /\ wcfg w' = c).
  { destruct (up && rc); [|inversion H; auto]. unfold replace_xbar in H. destruct (xbar_new _); try discriminate; [inv_as H u1 U1|]; inversion H; auto. }
  destruct E as [-> ->].
  assert (Ej : j = j1) by (destruct md; [inv_as P c1 C1|]; now inversion P). subst j1.
  split; [exact A|]. intros X. rewrite (B X) in P. inv_as P c1 C1. inversion P; subst. exact C1.
Qed.

(** An update with well-typed entries keeps the document well typed. *)
Lemma typed_merged j l j' : typed j -> typed (JObj l) -> merged same_value j (JObj l) j' -> typed j'.
Proof.
  intros T1 T2 H k K v Hin E. specialize (H k). cbn [jitems] in H. destruct (assoc k l) as [x|] eqn:Ea.
  - destruct H as [H1 H2]. destruct (same_value_dec j (k, x)) as [S|S].
    + rewrite (H1 S) in E. eapply T1; eassumption.
    + rewrite (H2 S) in E. injection E as <-. eapply T2; [exact Hin|exact Ea].
  - rewrite H in E. eapply T1; eassumption.
Qed.

Lemma update_says : forall w x l w' r, wx w = Some x -> NoDup (map fst l) -> ~ Forall (same_value (wdata w)) l ->
  step w (UpdateConfig (UJson (JObj l))) = Ok (w', r) ->
  merged same_value (wdata w) (JObj l) (wdata w') /\
  (typed (wdata w) -> typed (JObj l) -> says (wdata w') (wcfg w')) /\
  (forall w0 w1 r1, step w0 (SetConfig (Parsed (wdata w'))) = Ok (w1, r1) -> agree (wcfg w1) (wcfg w')).
Proof.
  intros w x l w' r Hx ND X H. destruct (update_doc w x (JObj l) w' r Hx ND H) as [A B]. specialize (B X). split; [exact A|]. split.
  - intros T1 T2. pose proof (typed_merged _ _ _ T1 T2 A) as HT. now apply (config_says _ HT) in B.
  - intros w0 w1 r1 H1. cbn [step set_config] in H1. inv_as H1 v V. inv_as H1 c C.
    apply replace_cfg in H1. rewrite H1. cbn. eapply config_agree; [exact C|exact B].
Qed.

Lemma update_reloads : forall w x u w', wx w = Some x -> NoDup (map fst (jitems u)) ->
  Exists (fun kv => In (fst kv) structural_keys /\ ~ same_value (wdata w) kv) (jitems u) ->
  verbose (wcfg w) = false \/ is_int (m_mode (wcfg w)) = true ->
  step w (UpdateConfig (UJson u)) = Ok (w', RCode 0) ->
  step w (SetConfig (Parsed (wdata w'))) = Ok (w', RUnit).
Proof.
  intros w x u w' Hx ND HE Hv H. cbn [step] in H |- *. unfold update_config in H. rewrite Hx in H.
  inv_as H p P. destruct p as [[[j c] up] rc]. unfold update_cfg in P. inv_as P q Q. destruct q as [[j1 md] rc1].
  destruct (upd_flags _ _ _ _ _ _ _ ND Q) as [B _]. destruct (B HE) as [-> ->].
  inv_as P c1 C1. inversion P; subst. clear P. cbn [andb] in H.
  unfold replace_xbar in H. change (wcfg (w <| wdata := j |> <| wcfg := c |>)) with c in H.
  destruct (xbar_new c) as [x'| | |] eqn:Ex; try discriminate. inv_as H v V. inversion H; subst w'. clear H V.
  unfold set_config, destroy. rewrite Hx.
  assert (D : verbose (wcfg w) && negb (is_int (m_mode (wcfg w))) = false).
  { destruct Hv as [->| ->]; [reflexivity|]. cbn [negb]. apply andb_false_r. }
  rewrite D. cbn [die_if bind]. change (wcfg (w <|wx := None|>)) with (wcfg w).
  change (wdata (w <|wdata := j|> <|wcfg := c|> <|wx := Some x'|>)) with j. rewrite C1. cbn [bind].
  unfold replace_xbar. change (wcfg (w <|wx := None|> <|wdata := j|> <|wcfg := c|>)) with c. rewrite Ex. destruct w; reflexivity.
Qed.
End DocProps.
