(** Documents that are taken for others (C76). *)
From Coq Require Import String List ZArith Bool Lia ZifyBool.
From RecordUpdate Require Import RecordSet.
From Verif Require Import Base Lib Machine Json Config Histogram Crossbar Api ConfigProofs Reach Spec
  CfgProps DocSpec DocProps LaxSpec.
Import ListNotations RecordSetNotations.
Local Open Scope Z_scope.
Local Open Scope out_scope.

Section LaxProps.
Context {MC : Machine}.

Lemma lax_u32 v v' : lax_count v v' -> as_u32 v = as_u32 v'.
Proof.
  intros [->|(z & -> & H & T)]; [reflexivity|]. cbn [as_u32].
  assert (E : u32 z = z) by (unfold u32; apply Z.mod_small; lia). rewrite E.
  destruct v; try contradiction; cbn [as_u32].
  - destruct b; now subst.
  - destruct T as [k ->]. f_equal. unfold u32 in *. rewrite Z.sub_0_r, Z_mod_plus_full. exact E.
  - rewrite T. replace ((0 <=? z) && (z <? 2 ^ 32)) with true by lia. reflexivity.
Qed.
Lemma lax_i32 v v' : lax_int32 v v' -> as_i32 v = as_i32 v'.
Proof.
  intros [->|(z & -> & H & T)]; [reflexivity|]. cbn [as_i32].
  assert (E : wrap32 z = z) by (unfold wrap32; rewrite Z.mod_small; lia). rewrite E.
  destruct v; try contradiction; cbn [as_i32].
  - destruct b; now subst.
  - destruct T as [k ->]. f_equal. unfold wrap32 in *. rewrite <- E at 2. f_equal.
    change (2 ^ 31 - - 2 ^ 31) with (2 ^ 32).
    replace (z + k * 2 ^ 32 + 2 ^ 31) with (z + 2 ^ 31 + k * 2 ^ 32) by ring. now rewrite Z_mod_plus_full.
  - rewrite T. replace (in32 z) with true by (unfold in32, int_min, int_max; lia). reflexivity.
Qed.
Lemma lax_float v v' : lax_number v v' -> as_float v = as_float v'.
Proof. intros [->|(b & -> & ->)]; reflexivity. Qed.
Lemma convs_lax {A B} (f : A -> conv B) (P : A -> A -> Prop) l l' : (forall x y, P x y -> f x = f y) ->
  Forall2 P l l' -> convs f l = convs f l'.
Proof. intros Hf. induction 1 as [|x y l l' H _ IH]; [reflexivity|]. cbn [convs]. now rewrite (Hf _ _ H), IH. Qed.
Lemma lax_u32s v v' : lax_counts v v' -> as_u32s v = as_u32s v'.
Proof. intros (l & l' & -> & -> & H). cbn [as_u32s]. eapply convs_lax; [apply lax_u32|exact H]. Qed.
Lemma lax_dict v v' : lax_ranges v v' -> as_dict v = as_dict v'.
Proof.
  intros (l & l' & -> & -> & H). cbn [as_dict]. eapply convs_lax; [|exact H]. cbn beta.
  intros [k x] [k' x'] [E (a & b & r & a' & b' & Ex & Ex' & Ha & Hb)]. cbn [fst snd] in *. subst. cbn [as_pair].
  now rewrite (lax_float _ _ Ha), (lax_float _ _ Hb).
Qed.

Lemma need_lax {A} (cv : json -> conv A) (lax : json -> json -> Prop) j j' k : (forall v v', lax v v' -> cv v = cv v') ->
  must lax (jat j k) (jat j' k) -> need cv j k = need cv j' k.
Proof. intros L [E|(v & v' & E & E' & H)]; unfold need; [now rewrite E|]. rewrite E, E'. now rewrite (L _ _ H). Qed.
Lemma need_eq {A} (cv : json -> conv A) j j' k : jat j k = jat j' k -> need cv j k = need cv j' k.
Proof. intros E. unfold need. now rewrite E. Qed.
Lemma opt_lax {A} (cv : json -> conv A) (lax : json -> json -> Prop) (wrong : json -> Prop) j j' k d : (forall v v', lax v v' -> cv v = cv v') ->
  (forall v, wrong v -> cv v = CErr) -> may lax wrong (jat j k) (jat j' k) -> opt cv j k d = opt cv j' k d.
Proof.
  intros L W [[E|(v & v' & E & E' & H)]|(v & E & H & E')]; unfold opt; [now rewrite E| |]; rewrite E, E'.
  - now rewrite (L _ _ H).
  - now rewrite (W _ H).
Qed.

Section Two.
Context (j j' : json) (HL : lenient j j').
Ltac key := apply HL; unfold lenience; cbn [In]; repeat (first [left; reflexivity | right]).

Lemma x_u32 k : In k ["M"; "N"; "W_BIT"; "I_BIT"]%string -> need as_u32 j k = need as_u32 j' k.
Proof. intros H. apply (need_lax _ _ _ _ _ lax_u32). cbn [In] in H. repeat (destruct H as [<-|H]; [key|]). destruct H. Qed.
Lemma x_split : need as_u32s j "SPLIT" = need as_u32s j' "SPLIT".
Proof. apply (need_lax _ _ _ _ _ lax_u32s). key. Qed.
Lemma x_word k : In k ["m_mode"; "adc_type"]%string -> need as_string j k = need as_string j' k.
Proof. intros H. apply need_eq. cbn [In] in H. repeat (destruct H as [<-|H]; [key|]). destruct H. Qed.
Lemma x_flag k : In k ["digital_only"; "verbose"]%string -> need as_bool j k = need as_bool j' k.
Proof. intros H. apply need_eq. cbn [In] in H. repeat (destruct H as [<-|H]; [key|]). destruct H. Qed.
Lemma x_num k : In k ["HRS"; "LRS"; "HRS_NOISE"; "LRS_NOISE"; "V_read"; "w_res"; "t_read"; "read_disturb_mitigation_fp"; "read_disturb_update_tolerance"]%string ->
  need as_float j k = need as_float j' k.
Proof. intros H. apply (need_lax _ _ _ _ _ lax_float). cbn [In] in H. repeat (destruct H as [<-|H]; [key|]). destruct H. Qed.
Lemma x_res : need as_i32 j "resolution" = need as_i32 j' "resolution".
Proof. apply (need_lax _ _ _ _ _ lax_i32). key. Qed.
Lemma x_dict : need as_dict j "adc_calib_dict" = need as_dict j' "adc_calib_dict".
Proof. apply (need_lax _ _ _ _ _ lax_dict). key. Qed.
Lemma y_flag k d : In k ["d2d_var"; "c2c_var"; "read_disturb"; "parasitics"; "adc_profile"]%string ->
  opt as_bool j k d = opt as_bool j' k d.
Proof.
  intros H. apply (opt_lax as_bool eq no_flag); [now intros ? ? ->|intros v; destruct v; cbn; tauto|].
  cbn [In] in H. repeat (destruct H as [<-|H]; [key|]). destruct H.
Qed.
Lemma y_word k d : In k ["adc_calib_mode"; "read_disturb_mitigation_strategy"]%string ->
  opt as_string j k d = opt as_string j' k d.
Proof.
  intros H. apply (opt_lax as_string eq no_word); [now intros ? ? ->|intros v; destruct v; cbn; tauto|].
  cbn [In] in H. repeat (destruct H as [<-|H]; [key|]). destruct H.
Qed.
Lemma y_bin d : opt as_i32 j "adc_profile_bin_size" d = opt as_i32 j' "adc_profile_bin_size" d.
Proof. apply (opt_lax as_i32 lax_int32 no_number); [apply lax_i32|intros v; destruct v; cbn; tauto|key]. Qed.
Lemma y_freq d : opt as_u32 j "read_disturb_update_freq" d = opt as_u32 j' "read_disturb_update_freq" d.
Proof. apply (opt_lax as_u32 lax_count no_number); [apply lax_u32|intros v; destruct v; cbn; tauto|key]. Qed.

Lemma adc_same c : apply_adc j c = apply_adc j' c.
Proof.
  unfold apply_adc. rewrite x_res, x_dict, y_bin, (y_word "adc_calib_mode"), (y_flag "adc_profile") by (cbn; tauto). reflexivity.
Qed.
Lemma rd_same c : apply_rd j c = apply_rd j' c.
Proof.
  unfold apply_rd. rewrite y_freq, (y_word "read_disturb_mitigation_strategy"), (x_num "t_read"), (x_num "read_disturb_mitigation_fp"),
    (x_num "read_disturb_update_tolerance") by (cbn; tauto). reflexivity.
Qed.
Lemma par_same c : apply_par j c = apply_par j' c.
Proof. unfold apply_par. rewrite (x_num "w_res") by (cbn; tauto). reflexivity. Qed.
Lemma bind_ext {A B} (x : out A) (f g : A -> out B) : (forall a, f a = g a) -> bind x f = bind x g.
Proof. intros H. destruct x; cbn [bind]; auto. Qed.
Lemma ana_same c : apply_analog j c = apply_analog j' c.
Proof.
  unfold apply_analog. rewrite (x_num "HRS"), (x_num "LRS"), (x_word "adc_type"), (x_num "HRS_NOISE"), (x_num "LRS_NOISE"), (x_num "V_read"),
    (y_flag "d2d_var"), (y_flag "c2c_var"), (y_flag "read_disturb"), (y_flag "parasitics") by (cbn; tauto). cbv zeta.
  repeat (apply bind_ext; intros ?). rewrite adc_same.
  repeat (apply bind_ext; intros ?). rewrite rd_same. apply bind_ext; intros ?. apply par_same.
Qed.
Lemma bits_same c : apply_bits j c = apply_bits j' c.
Proof. unfold apply_bits. rewrite (x_u32 "W_BIT"), (x_u32 "I_BIT"), x_split by (cbn; tauto). reflexivity. Qed.
Lemma config_same c : apply_config j c = apply_config j' c.
Proof.
  unfold apply_config. rewrite (x_u32 "M"), (x_u32 "N"), (x_word "m_mode"), (x_flag "digital_only"), (x_flag "verbose") by (cbn; tauto).
  cbv zeta. repeat (apply bind_ext; intros ?).
  rewrite (ana_same _). apply bind_ext; intros ?. rewrite bits_same. reflexivity.
Qed.
End Two.

(** A load of [j] does what a load of [j'] does, but keeps [j]. *)
Lemma lax_load : forall w j j', lenient j j' ->
  match step w (SetConfig (Parsed j')) with
  | Ok (w', r) => step w (SetConfig (Parsed j)) = Ok (w' <| wdata := j |>, r)
  | Died => step w (SetConfig (Parsed j)) = Died
  | UB f => step w (SetConfig (Parsed j)) = UB f
  | Threw => step w (SetConfig (Parsed j)) = Threw
  end.
Proof.
  intros w j j' HL. cbn [step]. unfold set_config. destruct (destroy _ _); cbn [bind]; try reflexivity.
  rewrite (config_same j j' HL). destruct (apply_config j' _) as [c| | |]; cbn [bind]; try reflexivity.
  unfold replace_xbar. cbn. destruct (xbar_new c); reflexivity.
Qed.

(** A fraction out of range is undefined behaviour (static_cast from double). *)
Lemma huge_load : forall w j d, wx w = None \/ verbose (wcfg w) = false \/ is_int (m_mode (wcfg w)) = true ->
  jat j "M" = Some (JFlt d) -> (forall z, d_trunc d = Some z -> ~ 0 <= z < 2 ^ 32) ->
  step w (SetConfig (Parsed j)) = UB FloatToInt.
Proof.
  intros w j d Hd E H. cbn [step]. unfold set_config.
  assert (D : destroy (wcfg w) (wx w) = Ok tt).
  { unfold destroy. destruct (wx w); [|reflexivity]. destruct Hd as [?|[->| ->]]; [discriminate|reflexivity|].
    cbn [negb]. now rewrite andb_false_r. }
  rewrite D. cbn [bind]. unfold apply_config, need at 1. rewrite E. cbn [as_u32]. destruct (d_trunc d) as [z|]; [|reflexivity].
  specialize (H z eq_refl). replace ((0 <=? z) && (z <? 2 ^ 32)) with false by lia. reflexivity.
Qed.
End LaxProps.
