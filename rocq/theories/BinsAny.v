(** Every 32-bit histogram bin size is accepted. *)
From Coq Require Import String List ZArith Bool Lia.
From RecordUpdate Require Import RecordSet.
From Verif Require Import Base Lib Machine Json Config Adc Mapper ReadDisturb Crossbar Api Spec ConfigProofs CfgProps.
Import ListNotations RecordSetNotations.
Local Open Scope Z_scope.
Local Open Scope out_scope.
Ltac Zify.zify_post_hook ::= idtac.

Section BA.
Context {MC : Machine}.
Definition omap {A B} (f : A -> B) (x : out A) : out B := bind x (fun a => Ok (f a)).
Definition sized (x : Z) (c : config) : config := c <| bin_size := x |>.

Lemma omap_bind {A B} (f : B -> B) (x : out A) k k' : (forall a, k' a = omap f (k a)) -> bind x k' = omap f (bind x k).
Proof. intros E. unfold omap in *. destruct x; cbn [bind]; auto. Qed.

Ltac comm := repeat first
  [ apply omap_bind; intros
  | reflexivity
  | match goal with |- (if ?b then _ else _) = omap _ (if ?b then _ else _) => destruct b end
  | match goal with |- match ?b with _ => _ end = omap _ (match ?b with _ => _ end) => destruct b end ].

Lemma rd_sized j x c : apply_rd j (sized x c) = omap (sized x) (apply_rd j c).
Proof. unfold apply_rd. destruct c. cbn. comm. Qed.
Lemma par_sized j x c : apply_par j (sized x c) = omap (sized x) (apply_par j c).
Proof. unfold apply_par. destruct c. cbn. comm. Qed.
Lemma bits_sized j x c : apply_bits j (sized x c) = omap (sized x) (apply_bits j c).
Proof. unfold apply_bits. destruct c. cbn. comm. Qed.
Lemma new_sized x c : xbar_new (sized x c) = xbar_new c.
Proof. reflexivity. Qed.
(** config.cpp:165-298: the analog block after the converter. *)
Definition ana_rest (j : json) (c : config) : out config :=
  _ <- die_if (negb (adc_ok (m_mode c) (adc_type c))) ;;
  hn <- need as_float j "HRS_NOISE" ;;
  ln <- need as_float j "LRS_NOISE" ;;
  d2d <- opt as_bool j "d2d_var" true ;;
  c2c <- opt as_bool j "c2c_var" false ;;
  let c := c <| HRS_NOISE := hn |> <| LRS_NOISE := ln |> <| d2d_var := d2d |> <| c2c_var := c2c |> in
  _ <- die_if (is_int (m_mode c) && (d2d && c2c)) ;;
  rd <- opt as_bool j "read_disturb" false ;;
  pa <- opt as_bool j "parasitics" false ;;
  let c := c <| read_disturb := rd |> <| parasitics := pa |> in
  c <- (if pa || rd then
          v <- need as_float j "V_read" ;;
          _ <- die_if (fle f0 v) ;;
          Ok (c <| V_read := v |>)
        else Ok c) ;;
  c <- apply_rd j c ;;
  apply_par j c.
Lemma ana_split j c : apply_analog j c =
  (h <- need as_float j "HRS" ;;
  l <- need as_float j "LRS" ;;
  an <- need as_string j "adc_type" ;;
  at_ <- named adc_names an ;;
  let c := c <| HRS := h |> <| LRS := l |> <| adc_type := at_ |> in
  _ <- die_if (fle h f0 || fle l f0) ;;
  c <- apply_adc j c ;; ana_rest j c)%out.
Proof. reflexivity. Qed.
Lemma bind_sized x (y : out config) k : (forall c, k (sized x c) = omap (sized x) (k c)) ->
  bind (omap (sized x) y) k = omap (sized x) (bind y k).
Proof. intros E. destruct y; cbn [omap bind]; auto. Qed.
Lemma rest_sized j x c : ana_rest j (sized x c) = omap (sized x) (ana_rest j c).
Proof.
  unfold ana_rest. change (m_mode (sized x c)) with (m_mode c). change (adc_type (sized x c)) with (adc_type c).
  do 5 (apply omap_bind; intros). cbv zeta.
  refine (omap_bind _ _ _ _ _); intros. do 2 (apply omap_bind; intros).
  match goal with |- bind ?e _ = omap _ (bind ?f _) => assert (E : e = omap (sized x) f) end.
  { match goal with |- (if ?b then _ else _) = _ => destruct b; [|reflexivity] end. do 2 (apply omap_bind; intros). reflexivity. }
  rewrite E. apply bind_sized. intros c3. rewrite rd_sized. apply bind_sized. intros c4. apply par_sized.
Qed.

Lemma rest_keeps j c y : ana_rest j c = Ok y -> adc_type y = adc_type c /\ adc_profile y = adc_profile c.
Proof.
  unfold ana_rest. intros H.
  inv_as H u2 A7. inv_as H hn A8. inv_as H ln A9. inv_as H d2d A10. inv_as H c2c A11. inv_as H u3 A12. inv_as H rd A13. inv_as H pa A14.
  inv_as H c2 A15. inv_as H c3 A16.
  assert (E2 : adc_type c2 = adc_type c /\ adc_profile c2 = adc_profile c).
  { destruct (pa || rd); [inv_as A15 v V; inv_as A15 w W|]; inversion A15; split; reflexivity. }
  assert (E3 : adc_type c3 = adc_type c2 /\ adc_profile c3 = adc_profile c2).
  { apply rd_inv in A16. destruct A16 as [[_ ->]|(_ & _ & t & u & ms & mt & _ & _ & _ & _ & E5)]; [easy|].
    destruct mt; [destruct E5 as (fp & _ & _ & ->)|destruct E5 as (fp & _ & _ & _ & ->)|rewrite E5]; split; reflexivity. }
  assert (E4 : adc_type y = adc_type c3 /\ adc_profile y = adc_profile c3).
  { apply par_inv in H. destruct H as [[_ ->]|(_ & w & _ & ->)]; split; reflexivity. }
  destruct E2, E3, E4. split; congruence.
Qed.

Section Two.
Context (j j' : json) (x : Z).
Context (Hsame : forall k, k <> "adc_profile_bin_size"%string -> jat j' k = jat j k).
Context (Hx : jat j' "adc_profile_bin_size" = Some (JInt x)).
Context (Hr : int_min <= x <= int_max).

Ltac back := repeat match goal with
  | |- context[need ?cv j' ?k] => rewrite (need_same cv j j' k) by (apply Hsame; discriminate)
  | |- context[opt ?cv j' ?k ?d] => rewrite (opt_same cv j j' k d) by (apply Hsame; discriminate)
  end.
Ltac fwd := repeat (match goal with E : ?l = Ok ?r |- context[?l] => rewrite E end; cbn [bind]).

Lemma bin_read d : opt as_i32 j' "adc_profile_bin_size" d = Ok x.
Proof. unfold opt. rewrite Hx. cbn [as_i32]. now rewrite wrap32_id. Qed.
Lemma adc_any c y : apply_adc j c = Ok y ->
  exists s, apply_adc j' c = Ok (sized s y) /\ (adc_type y <> INF_ADC -> adc_profile y = true -> s = x).
Proof.
  intros H. unfold apply_adc in *. destruct (adc_eqb (adc_type c) INF_ADC) eqn:E.
  - inversion H; subst. exists (bin_size y). split; [destruct y; reflexivity|]. destruct (adc_type y); easy.
  - inv_as H u U. inv_as H r R. inv_as H cm C. inv_as H c1 C1. inv_as H p P.
    rewrite (opt_same as_bool j j' "adc_profile") by (apply Hsame; discriminate).
    rewrite (opt_same as_string j j' "adc_calib_mode") by (apply Hsame; discriminate).
    rewrite (need_same as_i32 j j' "resolution") by (apply Hsame; discriminate).
    rewrite (need_same as_dict j j' "adc_calib_dict") by (apply Hsame; discriminate).
    rewrite U. cbn [bind]. rewrite R. cbn [bind]. rewrite C. cbn [bind]. rewrite C1. cbn [bind]. rewrite P. cbn [bind].
    destruct p.
    + inv_as H bs B. inversion H; subst. exists x. split; [|reflexivity]. rewrite bin_read. cbn [bind]. destruct c1; reflexivity.
    + inversion H; subst. exists (bin_size c1). split; [destruct c1; reflexivity|]. destruct c1. cbn. discriminate.
Qed.
Lemma ana_any c y : apply_analog j c = Ok y ->
  exists s, apply_analog j' c = Ok (sized s y) /\ (adc_type y <> INF_ADC -> adc_profile y = true -> s = x).
Proof.
  intros H. rewrite ana_split in *.
  inv_as H h A1. inv_as H l A2. inv_as H an A3. inv_as H at_ A4. inv_as H u1 A5. inv_as H c1 A6.
  apply adc_any in A6. destruct A6 as (s & A6 & Hs). exists s. back. fwd.
  replace (ana_rest j' (sized s c1)) with (ana_rest j (sized s c1)).
  - rewrite rest_sized, H. split; [reflexivity|]. destruct (rest_keeps _ _ _ H) as [-> ->]. exact Hs.
  - unfold ana_rest, apply_rd, apply_par. back. reflexivity.
Qed.

Lemma ana_digital c y : apply_analog j c = Ok y -> digital_only y = digital_only c.
Proof.
  intros H. apply analog_inv in H.
  destruct H as (h & l & at_ & z & hn & ln & dv & cv & rd & pa & v1 & r1 & _ & _ & _ & _ & _ & Ea & _ & _ & _ & _ & _ & _ & _ & _ & _ & Er & Ep).
  apply adc_inv in Ea. apply rd_inv in Er. apply par_inv in Ep.
  assert (E1 : digital_only z = digital_only c).
  { destruct Ea as [[_ ->]|(_ & _ & r & cm & p & m' & d & bs & _ & _ & _ & _ & _ & ->)]; reflexivity. }
  assert (E2 : digital_only r1 = digital_only z).
  { destruct Er as [[_ ->]|(_ & _ & t & u & ms & mt & _ & _ & _ & _ & E5)]; [reflexivity|].
    destruct mt; [destruct E5 as (fp & _ & _ & ->)|destruct E5 as (fp & _ & _ & _ & ->)|rewrite E5]; reflexivity. }
  assert (E3 : digital_only y = digital_only r1).
  { destruct Ep as [[_ ->]|(_ & w & _ & ->)]; reflexivity. }
  congruence.
Qed.
Lemma config_any c y : apply_config j c = Ok y -> exists s, apply_config j' c = Ok (sized s y) /\
  (digital_only y = false -> adc_type y <> INF_ADC -> adc_profile y = true -> s = x).
Proof.
  intros H. unfold apply_config in *.
  inv_as H m A1. inv_as H n A2. inv_as H u A3. inv_as H mn A4. inv_as H mm A5. inv_as H dig A6. inv_as H c1 A7. inv_as H c2 A8. inv_as H v A9.
  inversion H; subst y.
  assert (E1 : exists s, (if dig then Ok (c <| M := m |> <| N := n |> <| m_mode := mm |> <| digital_only := dig |>)
                  else apply_analog j' (c <| M := m |> <| N := n |> <| m_mode := mm |> <| digital_only := dig |>)) = Ok (sized s c1) /\
      (dig = false -> adc_type c1 <> INF_ADC -> adc_profile c1 = true -> s = x)).
  { destruct dig.
    - exists (bin_size c1). split; [|discriminate]. inversion A7. destruct c; reflexivity.
    - apply ana_any in A7. destruct A7 as (s & A7 & Hs). exists s. auto. }
  destruct E1 as (s & E1 & Hs). exists s. back. fwd.
  replace (apply_bits j' (sized s c1)) with (apply_bits j (sized s c1)) by (unfold apply_bits; back; reflexivity).
  rewrite bits_sized, A8. cbn [omap bind].
  split; [reflexivity|].
  change (digital_only (c2 <| verbose := v |>)) with (digital_only c2). change (adc_type (c2 <| verbose := v |>)) with (adc_type c2).
  change (adc_profile (c2 <| verbose := v |>)) with (adc_profile c2).
  apply bits_inv in A8.
  assert (D : digital_only c1 = dig).
  { destruct dig; [now inversion A7|]. apply ana_digital in A7. exact A7. }
  assert (E2 : digital_only c2 = dig /\ adc_type c2 = adc_type c1 /\ adc_profile c2 = adc_profile c1).
  { rewrite <- D. clear - A8. destruct (m_mode c1); cbn [is_int] in A8;
      repeat match type of A8 with exists _, _ => destruct A8 as [? A8] | _ /\ _ => destruct A8 as [_ A8] end; rewrite A8; repeat split. }
  destruct E2 as (-> & -> & ->). exact Hs.
Qed.

Lemma load_any w w1 r : step w (SetConfig (Parsed j)) = Ok (w1, r) -> exists w2, step w (SetConfig (Parsed j')) = Ok (w2, r) /\
  (digital_only (wcfg w1) = false -> adc_type (wcfg w1) <> INF_ADC -> adc_profile (wcfg w1) = true -> bin_size (wcfg w2) = x).
Proof.
  intros H. cbn [step] in *. unfold set_config in *. inv_as H u U. inv_as H c C. rewrite U. cbn [bind].
  change (wcfg (w <| wx := None |>)) with (wcfg w) in *. destruct (config_any _ _ C) as (s & E & Hs). rewrite E. cbn [bind].
  unfold replace_xbar in *.
  change (wcfg (w <| wx := None |> <| wdata := j |> <| wcfg := c |>)) with c in H.
  change (wcfg (w <| wx := None |> <| wdata := j' |> <| wcfg := sized s c |>)) with (sized s c).
  change (wx (w <| wx := None |> <| wdata := j |> <| wcfg := c |>)) with (@None xbar) in H.
  change (wx (w <| wx := None |> <| wdata := j' |> <| wcfg := sized s c |>)) with (@None xbar).
  rewrite new_sized. destruct (xbar_new c) as [xb| | |]; try discriminate; cbn [destroy bind] in *; inversion H; subst w1 r; clear H;
    (eexists; split; [reflexivity|]; exact Hs).
Qed.
End Two.

Lemma bin_put l v : (forall k, k <> "adc_profile_bin_size"%string -> jat (JObj (jput l "adc_profile_bin_size" v)) k = jat (JObj l) k) /\
  jat (JObj (jput l "adc_profile_bin_size" v)) "adc_profile_bin_size" = Some v.
Proof.
  cbn [jat]. split; [intros k Hk|]; rewrite assoc_jput.
  - apply String.eqb_neq in Hk. now rewrite Hk.
  - now rewrite String.eqb_refl.
Qed.
End BA.
