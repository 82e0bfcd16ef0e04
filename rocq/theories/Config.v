(** Configuration singleton: /repo/cpp/inc/helper/config.h, definitions.h and
    /repo/cpp/src/helper/config.cpp. *)
From Coq Require Import List ZArith Bool String.
From RecordUpdate Require Import RecordSet.
From Verif Require Import Base Machine Json.
Import ListNotations RecordSetNotations.
Local Open Scope Z_scope.
Local Open Scope out_scope.

(** definitions.h:19-41, MappingMode. *)
Inductive mode : Type :=
| I_DIFF_W_DIFF_1XB | I_DIFF_W_DIFF_2XB | I_OFFS_W_DIFF | I_TC_W_DIFF
| I_UINT_W_DIFF | I_UINT_W_OFFS
| BNN_I | BNN_II | BNN_III | BNN_IV | BNN_V | BNN_VI
| TNN_I | TNN_II | TNN_III | TNN_IV | TNN_V.

(** definitions.h:43-60 and config.cpp:335-345, mode_to_type. *)
Definition is_int (m : mode) : bool :=
  match m with
  | I_DIFF_W_DIFF_1XB | I_DIFF_W_DIFF_2XB | I_OFFS_W_DIFF | I_TC_W_DIFF
  | I_UINT_W_DIFF | I_UINT_W_OFFS => true
  | _ => false
  end.
Definition is_bnn (m : mode) : bool :=
  match m with BNN_I | BNN_II | BNN_III | BNN_IV | BNN_V | BNN_VI => true | _ => false end.
Definition is_tnn (m : mode) : bool :=
  match m with TNN_I | TNN_II | TNN_III | TNN_IV | TNN_V => true | _ => false end.

(** adc.h:23-30. *)
Inductive adc_ty : Type := INF_ADC | SYM_RANGE_ADC | POS_RANGE_ONLY_ADC.
Inductive calib : Type := CAL_MAX | CAL_CALIB.
(** definitions.h:103. *)
Inductive mitig : Type := SOFTWARE | CELL_BASED | MIT_OFF.

Section Cfg.
Context {MC : Machine}.

(** config.h:60-131.  uint32_t and int32_t members are integers kept in range by
    the conversions; [SPLIT] elements likewise. *)
Record config : Type := mkConfig {
  M : Z; N : Z;
  SPLIT : list Z;
  W_BIT : Z; I_BIT : Z;
  digital_only : bool;
  HRS : F; LRS : F;
  adc_type : adc_ty;
  resolution : Z;
  adc_profile : bool;
  bin_size : Z;                             (* adc_profile_bin_size *)
  adc_calib_mode : calib;
  adc_calib_dict : list (string * (F * F));
  m_mode : mode;
  verbose : bool;
  HRS_NOISE : F; LRS_NOISE : F;
  d2d_var : bool; c2c_var : bool;
  read_disturb : bool;
  t_read : F;
  update_freq : Z;                          (* read_disturb_update_freq *)
  mitigation : mitig;                       (* read_disturb_mitigation_strategy *)
  mitigation_fp : F;                        (* read_disturb_mitigation_fp *)
  tolerance : F;                            (* read_disturb_update_tolerance *)
  parasitics : bool;
  w_res : F;
  V_read : F
}.

#[export] Instance eta_config : Settable _ :=
  settable! mkConfig <M; N; SPLIT; W_BIT; I_BIT; digital_only; HRS; LRS; adc_type;
    resolution; adc_profile; bin_size; adc_calib_mode; adc_calib_dict; m_mode; verbose;
    HRS_NOISE; LRS_NOISE; d2d_var; c2c_var; read_disturb; t_read; update_freq; mitigation;
    mitigation_fp; tolerance; parasitics; w_res; V_read>.

(** config.cpp:19-22: function-local static, so zero-initialised before the first load. *)
Definition config0 : config :=
  mkConfig 0 0 [] 0 0 false f0 f0 INF_ADC 0 false 0 CAL_MAX [] I_DIFF_W_DIFF_1XB false
           f0 f0 false false false f0 0 SOFTWARE f0 f0 false f0 f0.

(** config.cpp:67-106, mode names. *)
Definition mode_names : list (string * mode) :=
  [("I_DIFF_W_DIFF_1XB", I_DIFF_W_DIFF_1XB); ("I_DIFF_W_DIFF_2XB", I_DIFF_W_DIFF_2XB);
   ("I_OFFS_W_DIFF", I_OFFS_W_DIFF); ("I_TC_W_DIFF", I_TC_W_DIFF);
   ("I_UINT_W_DIFF", I_UINT_W_DIFF); ("I_UINT_W_OFFS", I_UINT_W_OFFS);
   ("BNN_I", BNN_I); ("BNN_II", BNN_II); ("BNN_III", BNN_III);
   ("BNN_IV", BNN_IV); ("BNN_V", BNN_V); ("BNN_VI", BNN_VI);
   ("TNN_I", TNN_I); ("TNN_II", TNN_II); ("TNN_III", TNN_III);
   ("TNN_IV", TNN_IV); ("TNN_V", TNN_V)]%string.

(** config.cpp:115-124. *)
Definition adc_names : list (string * adc_ty) :=
  [("INF_ADC", INF_ADC); ("SYM_RANGE_ADC", SYM_RANGE_ADC);
   ("POS_RANGE_ONLY_ADC", POS_RANGE_ONLY_ADC)]%string.

(** config.cpp:251-264. *)
Definition mitig_names : list (string * mitig) :=
  [("SOFTWARE", SOFTWARE); ("CELL_BASED", CELL_BASED); ("OFF", MIT_OFF)]%string.

(** exit(EXIT_FAILURE) unless the name is known. *)
Definition named {A} (l : list (string * A)) (s : string) : out A :=
  match assoc s l with Some a => Ok a | None => Died end.

Definition die_if (b : bool) : out unit := if b then Died else Ok tt.

(** config.cpp:165-201: which ADC types a mode accepts. *)
Definition adc_ok (m : mode) (a : adc_ty) : bool :=
  match m with
  | I_UINT_W_OFFS | BNN_III | BNN_IV | BNN_V | TNN_IV | TNN_V =>
      match a with INF_ADC | POS_RANGE_ONLY_ADC => true | SYM_RANGE_ADC => false end
  | _ => match a with INF_ADC | SYM_RANGE_ADC => true | POS_RANGE_ONLY_ADC => false end
  end.

Definition adc_eqb (a b : adc_ty) : bool :=
  match a, b with
  | INF_ADC, INF_ADC | SYM_RANGE_ADC, SYM_RANGE_ADC
  | POS_RANGE_ONLY_ADC, POS_RANGE_ONLY_ADC => true
  | _, _ => false
  end.

(** config.cpp:131-163: the ADC block; note that the resolution compared with -1
    is the value from before this load. *)
Definition apply_adc (j : json) (c : config) : out config :=
  if adc_eqb (adc_type c) INF_ADC then Ok c
  else
    _ <- die_if (resolution c =? -1) ;;
    r <- need as_i32 j "resolution" ;;
    let c := c <| resolution := r |> in
    cm <- opt as_string j "adc_calib_mode" "MAX"%string ;;
    c <- (if String.eqb cm "MAX" then Ok (c <| adc_calib_mode := CAL_MAX |>)
          else if String.eqb cm "CALIB" then
            d <- need as_dict j "adc_calib_dict" ;;
            match d with
            | [] => Died
            | _ => Ok (c <| adc_calib_mode := CAL_CALIB |> <| adc_calib_dict := d |>)
            end
          else Died) ;;
    p <- opt as_bool j "adc_profile" false ;;
    let c := c <| adc_profile := p |> in
    if p then
      b <- opt as_i32 j "adc_profile_bin_size" 10 ;;
      Ok (c <| bin_size := b |>)
    else Ok c.

(** config.cpp:234-289: read disturb parameters. *)
Definition apply_rd (j : json) (c : config) : out config :=
  if negb (read_disturb c) then Ok c
  else
    _ <- die_if (is_int (m_mode c)) ;;
    t <- need as_float j "t_read" ;;
    u <- opt as_u32 j "read_disturb_update_freq" 1 ;;
    ms <- opt as_string j "read_disturb_mitigation_strategy" "OFF"%string ;;
    mt <- named mitig_names ms ;;
    let c := c <| t_read := t |> <| update_freq := u |> <| mitigation := mt |> in
    match mt with
    | SOFTWARE =>
        fp <- need as_float j "read_disturb_mitigation_fp" ;;
        _ <- die_if (flt fp (f_of_Z 1)) ;;
        Ok (c <| mitigation_fp := fp |>)
    | CELL_BASED =>
        tol <- need as_float j "read_disturb_update_tolerance" ;;
        _ <- die_if (flt tol f0 || flt (f_of_Z 1) tol) ;;
        Ok (c <| tolerance := tol |>)
    | MIT_OFF => Ok c
    end.

(** config.cpp:291-297. *)
Definition apply_par (j : json) (c : config) : out config :=
  if negb (parasitics c) then Ok c
  else
    w <- need as_float j "w_res" ;;
    let c := c <| w_res := w |> in
    if feq w f0 then Ok (c <| parasitics := false |>) else Ok c.

(** config.cpp:109-298: everything skipped for digital configurations. *)
Definition apply_analog (j : json) (c : config) : out config :=
  h <- need as_float j "HRS" ;;
  l <- need as_float j "LRS" ;;
  an <- need as_string j "adc_type" ;;
  at_ <- named adc_names an ;;
  let c := c <| HRS := h |> <| LRS := l |> <| adc_type := at_ |> in
  _ <- die_if (fle h f0 || fle l f0) ;;
  c <- apply_adc j c ;;
  _ <- die_if (negb (adc_ok (m_mode c) (adc_type c))) ;;
  hn <- need as_float j "HRS_NOISE" ;;
  ln <- need as_float j "LRS_NOISE" ;;
  d2d <- opt as_bool j "d2d_var" true ;;
  c2c <- opt as_bool j "c2c_var" false ;;
  let c := c <| HRS_NOISE := hn |> <| LRS_NOISE := ln |> <| d2d_var := d2d |> <| c2c_var := c2c |> in
  _ <- die_if (is_int (m_mode c) && (d2d && c2c)) ;;
  rd <- opt as_bool j "read_disturb" false ;;
  pa <- opt as_bool j "parasitics" false ;;
  let c := c <| read_disturb := rd |> <| parasitics := pa |> in
  c <- (if pa || rd then
          v <- need as_float j "V_read" ;;
          _ <- die_if (fle f0 v) ;;
          Ok (c <| V_read := v |>)
        else Ok c) ;;
  c <- apply_rd j c ;;
  apply_par j c.

(** config.cpp:300-324. *)
Definition apply_bits (j : json) (c : config) : out config :=
  if is_int (m_mode c) then
    w <- need as_u32 j "W_BIT" ;;
    i <- need as_u32 j "I_BIT" ;;
    s <- need as_u32s j "SPLIT" ;;
    _ <- die_if ((w <=? 0) || (i <=? 0)) ;;
    Ok (c <| W_BIT := w |> <| I_BIT := i |> <| SPLIT := s |>)
  else
    match m_mode c with
    | TNN_IV | TNN_V =>
        w <- need as_u32 j "W_BIT" ;;
        s <- need as_u32s j "SPLIT" ;;
        _ <- die_if (negb (w =? 2)) ;;
        match s with
        | [1; 1] => Ok (c <| W_BIT := w |> <| SPLIT := s |>)
        | _ => Died
        end
    | _ => Ok (c <| SPLIT := [0] |>)
    end.

(** config.cpp:58-333, apply_config.  Every failed check exits the process; the
    surrounding try/catch is never entered by an exception (getConfigValue catches its
    own), so the function returns true whenever it returns. *)
Definition apply_config (j : json) (c : config) : out config :=
  m <- need as_u32 j "M" ;;
  n <- need as_u32 j "N" ;;
  _ <- die_if ((m <=? 0) || (n <=? 0)) ;;
  mn <- need as_string j "m_mode" ;;
  mm <- named mode_names mn ;;
  dig <- need as_bool j "digital_only" ;;
  let c := c <| M := m |> <| N := n |> <| m_mode := mm |> <| digital_only := dig |> in
  c <- (if dig then Ok c else apply_analog j c) ;;
  c <- apply_bits j c ;;
  v <- need as_bool j "verbose" ;;
  Ok (c <| verbose := v |>).

(** config.h:36-58, default recreation keys. *)
Definition recreation_keys : list string :=
  ["W_BIT"; "M"; "N"; "SPLIT"; "digital_only"; "HRS"; "LRS"; "adc_type"; "resolution";
   "adc_profile"; "adc_calib_mode"; "adc_calib_dict"; "m_mode"; "HRS_NOISE"; "LRS_NOISE";
   "read_disturb"; "V_read"; "t_read"; "read_disturb_update_freq";
   "read_disturb_mitigation_strategy"; "read_disturb_mitigation_fp";
   "read_disturb_update_tolerance"; "parasitics"]%string.

Definition is_null (j : json) : bool := match j with JNull => true | _ => false end.

(** config.cpp:367-403, the update loop: returns the new JSON data, whether
    anything changed, and whether a recreation key changed.  The inner exception of
    [cfg_data_[key] = v] ends in exit (config.cpp:414-418). *)
Fixpoint update_keys (kvs : list (string * json)) (j : json) (modified recreate : bool)
  : out (json * bool * bool) :=
  match kvs with
  | [] => Ok (j, modified, recreate)
  | (k, v) :: r =>
      if negb (jcontains j k) && is_null v then update_keys r j modified recreate
      else
        let changed := match jat j k with
                       | Some cur => negb (jeqb cur v)
                       | None => true
                       end in
        if changed then
          match jset j k v with
          | Some j' => update_keys r j' true (recreate || existsb (String.eqb k) recreation_keys)
          | None => Died
          end
        else update_keys r j modified recreate
  end.

(** config.cpp:347-419 after parsing: new data, new configuration, and the pair
    (returned value, recreate flag). *)
Definition update_cfg (upds : json) (j : json) (c : config) : out (json * config * bool * bool) :=
  '(j', modified, recreate) <- update_keys (jitems upds) j false false ;;
  if (modified : bool) then
    c' <- apply_config j' c ;;
    Ok (j', c', true, recreate)
  else Ok (j', c, false, recreate).

(** ** Derived sizes *)
Definition nsplit (c : config) : nat := List.length (SPLIT c).
Definition rowsN (c : config) : nat := Z.to_nat (M c) * nsplit c.   (* CFG.M * CFG.SPLIT.size() *)
Definition colsN (c : config) : nat := Z.to_nat (N c).
End Cfg.
