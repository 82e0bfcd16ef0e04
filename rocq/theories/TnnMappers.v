(** MVM of the ternary mappers II-V: /repo/cpp/src/mapping/tnn_mapper/*.cpp
    (TNN_I shares [quad_d] / [quad_a] with BNN_VI), and the dispatch over all modes. *)
From Coq Require Import List ZArith Bool String.
From RecordUpdate Require Import RecordSet.
From Verif Require Import Base Machine Json Config Histogram Adc ReadDisturb Parasitics Mapper
  IntMappers BnnMappers.
Import ListNotations RecordSetNotations.
Local Open Scope Z_scope.
Local Open Scope out_scope.

Section Tnn.
Context {MC : Machine}.

(** tnn_ii.cpp:38-40 and 48-50. *)
Definition bit0_ii (v : Z) : out Z := Ok (if v =? 0 then 0 else 1).
Definition bit1_ii (v : Z) : out Z := Ok (if v =? -1 then 1 else 0).
(** tnn_iii.cpp:38-41 and 49-52: uint32_t masks on [vec + 1]. *)
Definition bit0_iii (v : Z) : out Z := y <- add32 v 1 ;; Ok (Z.land (u32 y) 1).
Definition bit1_iii (v : Z) : out Z := y <- add32 v 1 ;; Ok (Z.shiftr (Z.land (u32 y) 2) 1).

Definition dshl1 (gp gm : list (list Z)) (v : list Z) (t n : nat) : out Z :=
  x <- dterm gp gm v t n ;; shl32 strict_shl x 1.

(** tnn_ii.cpp:34-56. *)
Definition tnn_ii_d (c : config) (mp : mapper) (res vec mat : list Z) (m n : nat)
  : out (list Z * mapper) :=
  v0 <- load vec n bit0_ii (vd_p mp) ;;
  res <- acc2 m n (dterm (gd_p mp) (gd_m mp) v0) res ;;
  v1 <- load vec n bit1_ii v0 ;;
  res <- dec2 m n (dshl1 (gd_p mp) (gd_m mp) v1) res ;;
  Ok (res, mp <| vd_p := v1 |>).

(** tnn_iii.cpp:34-63. *)
Definition tnn_iii_d (c : config) (mp : mapper) (res vec mat : list Z) (m n : nat)
  : out (list Z * mapper) :=
  v0 <- load vec n bit0_iii (vd_p mp) ;;
  res <- acc2 m n (dterm (gd_p mp) (gd_m mp) v0) res ;;
  v1 <- load vec n bit1_iii v0 ;;
  res <- acc2 m n (dshl1 (gd_p mp) (gd_m mp) v1) res ;;
  res <- forN m (fun i res => sw <- get (sum_w mp) i ;; subto res i sw) res ;;
  Ok (res, mp <| vd_p := v1 |>).

(** [gp * (vp - vm) -/+ ((gm * (vp - vm)) << 1)]: tnn_iv.cpp:68-69, tnn_v.cpp:74-75. *)
Definition dtc (plus : bool) (gp gm : list (list Z)) (vp vm : list Z) (t n : nat) : out Z :=
  a <- get vp n ;; b <- get vm n ;; d <- sub32 a b ;;
  g <- get2 gp t n ;; x <- mul32 g d ;;
  h <- get2 gm t n ;; y <- mul32 h d ;; z <- shl32 strict_shl y 1 ;;
  if plus then add32 x z else sub32 x z.

(** tnn_iv.cpp:40-72. *)
Definition tnn_iv_d (c : config) (mp : mapper) (res vec mat : list Z) (m n : nat)
  : out (list Z * mapper) :=
  if split11 (SPLIT c) then
    '(vp, vm) <- two_rail true vec n (vd_p mp) (vd_m mp) ;;
    res <- acc2 m n (dtc false (gd_p mp) (gd_m mp) vp vm) res ;;
    Ok (res, mp <| vd_p := vp |> <| vd_m := vm |>)
  else Died.

(** tnn_v.cpp:40-79. *)
Definition tnn_v_d (c : config) (mp : mapper) (res vec mat : list Z) (m n : nat)
  : out (list Z * mapper) :=
  if split11 (SPLIT c) then
    isum <- sum64 vec n ;;
    '(vp, vm) <- two_rail true vec n (vd_p mp) (vd_m mp) ;;
    res <- forN m (fun i res =>
        res <- forN n (fun j res =>
            x <- dtc true (gd_p mp) (gd_m mp) vp vm i j ;; addto res i x) res ;;
        subto64 res i isum) res ;;
    Ok (res, mp <| vd_p := vp |> <| vd_m := vm |>)
  else Died.

(** ** Analog *)

(** One slice of tnn_ii / tnn_iii: tnn_ii.cpp:66-83 and 90-102, tnn_iii.cpp. *)
Definition tnn_slice (c : config) (mp : mapper) (v : list Z) (m n : nat) (l : string) (k : Z)
    (sub : bool) (t : list F) (res : list Z) (e : env) : out (list Z * list F * env) :=
  t <- currents c mp (fterm (ia_p mp) (ia_m mp) v) v [] m n (fill t f0) ;;
  sc <- inv_imm mp k ;;
  '(t, e) <- adc_vec c (mp_adc mp) l m t sc f0 e ;;
  res <- forN m (fun i res =>
      x <- get t i ;; if sub then res_fsub res i x else res_fadd res i x) res ;;
  Ok (res, t, e).

(** tnn_ii.cpp:58-104. *)
Definition tnn_ii_a (c : config) (mp : mapper) (res vec mat : list Z) (m n : nat) (l : string)
    (e : env) : out (list Z * mapper * env) :=
  v0 <- load vec n bit0_ii (vd_p mp) ;;
  '(res, t, e) <- tnn_slice c mp v0 m n l 1 false (tmp mp) res e ;;
  v1 <- load vec n bit1_ii v0 ;;
  '(res, t, e) <- tnn_slice c mp v1 m n l 2 true t res e ;;
  Ok (res, mp <| vd_p := v1 |> <| tmp := t |>, e).

(** tnn_iii.cpp:65-118. *)
Definition tnn_iii_a (c : config) (mp : mapper) (res vec mat : list Z) (m n : nat) (l : string)
    (e : env) : out (list Z * mapper * env) :=
  v0 <- load vec n bit0_iii (vd_p mp) ;;
  '(res, t, e) <- tnn_slice c mp v0 m n l 1 false (tmp mp) res e ;;
  v1 <- load vec n bit1_iii v0 ;;
  '(res, t, e) <- tnn_slice c mp v1 m n l 2 false t res e ;;
  res <- forN m (fun i res => sw <- get (sum_w mp) i ;; subto res i sw) res ;;
  Ok (res, mp <| vd_p := v1 |> <| tmp := t |>, e).

(** One of the four passes tnn_iv.cpp:117-163 (tnn_v.cpp:124-169) without parasitics:
    current sum of one matrix and one rail, conversion, accumulation into tmp_out_fp_. *)
Definition tc_pass (c : config) (mp : mapper) (ia : list (list F)) (v : list Z) (m n : nat)
    (l : string) (k : Z) (off : F) (sub : bool) (t fp : list F) (e : env)
  : out (list F * list F * env) :=
  t <- facc2 m n (fterm1 ia v) (fill t f0) ;;
  sc <- inv_imm mp k ;;
  '(t, e) <- adc_vec c (mp_adc mp) l m t sc off e ;;
  fp <- forN m (fun i fp => x <- get t i ;; if sub then fsubto fp i x else faddto fp i x) fp ;;
  Ok (t, fp, e).

(** One of the two passes tnn_iv.cpp:166-191 (tnn_v.cpp:172-196) with parasitics. *)
Definition tc_pass_par (c : config) (mp : mapper) (v : list Z) (m n : nat) (l : string)
    (off : F) (subl subm : bool) (lsb msb fp : list F) (e : env)
  : out (list F * list F * list F * list F * env) :=
  t <- compute_currents (par mp) v [] (2 * m) n ;;
  '(lsb, msb) <- forN m (fun i '(lsb, msb) =>
      x <- get t (2 * i) ;; lsb <- set lsb i x ;;
      y <- get t (2 * i + 1) ;; msb <- set msb i y ;; Ok (lsb, msb)) (lsb, msb) ;;
  s1 <- inv_imm mp 1 ;;
  '(lsb, e) <- adc_vec c (mp_adc mp) l m lsb s1 off e ;;
  s2 <- inv_imm mp 2 ;;
  '(msb, e) <- adc_vec c (mp_adc mp) l m msb s2 f0 e ;;
  fp <- forN m (fun i fp =>
      x <- get lsb i ;; fp <- (if subl then fsubto fp i x else faddto fp i x) ;;
      y <- get msb i ;; if subm then fsubto fp i y else faddto fp i y) fp ;;
  Ok (t, lsb, msb, fp, e).

(** tnn_iv.cpp:74-197 ([v = false]) and tnn_v.cpp:81-202 ([v = true]).  Offsets:
    TNN_IV: +-inp_sum*HRS/2 on the two LSB passes; TNN_V: 3*inp_sum*HRS on the negative
    LSB pass.  Signs of the MSB passes differ.  [tmp_out_.resize] (tnn_iv.cpp:165) is
    overwritten by the assignment inside compute_currents. *)
Definition tnn_tc_a (v : bool) (c : config) (mp : mapper) (res vec mat : list Z) (m n : nat)
    (l : string) (e : env) : out (list Z * mapper * env) :=
  let fp := fill (tmp_fp mp) f0 in
  if split11 (SPLIT c) then
    isum <- sum64 vec n ;;
    '(vp, vm) <- two_rail true vec n (vd_p mp) (vd_m mp) ;;
    i3 <- (if v then chk64 (3 * isum) else Ok isum) ;;
    let corr := fmul (f_of_Z i3) (HRS c) in
    let two := f_of_Z 2 in
    let offp := if v then f0 else fdiv corr two in
    let offm := if v then corr else fdiv (fneg corr) two in
    '(t, lsb, msb, fp, e) <-
      (if parasitics c then
         '(t, lsb, msb, fp, e) <- tc_pass_par c mp vp m n l offp false (negb v)
                                    (tmp_lsb mp) (tmp_msb mp) fp e ;;
         tc_pass_par c mp vm m n l offm true v lsb msb fp e
       else
         '(t, fp, e) <- tc_pass c mp (ia_p mp) vp m n l 1 offp false (tmp mp) fp e ;;
         '(t, fp, e) <- tc_pass c mp (ia_p mp) vm m n l 1 offm true t fp e ;;
         '(t, fp, e) <- tc_pass c mp (ia_m mp) vp m n l 2 f0 (negb v) t fp e ;;
         '(t, fp, e) <- tc_pass c mp (ia_m mp) vm m n l 2 f0 v t fp e ;;
         Ok (t, tmp_lsb mp, tmp_msb mp, fp, e)) ;;
    res <- forN m (fun i res =>
        x <- get fp i ;; res <- res_fadd res i x ;;
        if v then subto64 res i isum else Ok res) res ;;
    Ok (res, mp <| vd_p := vp |> <| vd_m := vm |> <| tmp := t |> <| tmp_lsb := lsb |>
                <| tmp_msb := msb |> <| tmp_fp := fp |>, e)
  else Died.

(** Virtual dispatch of d_mvm. *)
Definition d_mvm (c : config) (mp : mapper) (res vec mat : list Z) (m n : nat)
  : out (list Z * mapper) :=
  match mp_mode mp with
  | I_DIFF_W_DIFF_1XB | I_DIFF_W_DIFF_2XB => int_i_d c mp res vec mat m n
  | I_OFFS_W_DIFF => int_ii_d c mp res vec mat m n
  | I_TC_W_DIFF => int_iii_d c mp res vec mat m n
  | I_UINT_W_DIFF => int_iv_d c mp res vec mat m n
  | I_UINT_W_OFFS => int_v_d c mp res vec mat m n
  | BNN_I => bnn_i_d c mp res vec mat m n
  | BNN_II => bnn_ii_d c mp res vec mat m n
  | BNN_III => bnn_iii_d c mp res vec mat m n
  | BNN_IV => bnn_iv_d c mp res vec mat m n
  | BNN_V => bnn_v_d c mp res vec mat m n
  | BNN_VI => quad_d false c mp res vec mat m n
  | TNN_I => quad_d true c mp res vec mat m n
  | TNN_II => tnn_ii_d c mp res vec mat m n
  | TNN_III => tnn_iii_d c mp res vec mat m n
  | TNN_IV => tnn_iv_d c mp res vec mat m n
  | TNN_V => tnn_v_d c mp res vec mat m n
  end.

(** Virtual dispatch of a_mvm. *)
Definition a_mvm (c : config) (mp : mapper) (res vec mat : list Z) (m n : nat) (l : string)
    (e : env) : out (list Z * mapper * env) :=
  let pure (x : out (list Z * mapper)) := '(r, mp') <- x ;; Ok (r, mp', e) in
  match mp_mode mp with
  | I_DIFF_W_DIFF_1XB | I_DIFF_W_DIFF_2XB => pure (int_i_a c mp res vec mat m n l)
  | I_OFFS_W_DIFF => pure (int_ii_a c mp res vec mat m n l)
  | I_TC_W_DIFF => pure (int_iii_a c mp res vec mat m n l)
  | I_UINT_W_DIFF => pure (int_iv_a c mp res vec mat m n l)
  | I_UINT_W_OFFS => pure (int_v_a c mp res vec mat m n l)
  | BNN_I => bnn_i_a c mp res vec mat m n l e
  | BNN_II => bnn_ii_a c mp res vec mat m n l e
  | BNN_III => bnn_iii_iv_a false c mp res vec mat m n l e
  | BNN_IV => bnn_iii_iv_a true c mp res vec mat m n l e
  | BNN_V => bnn_v_a c mp res vec mat m n l e
  | BNN_VI => quad_a false c mp res vec mat m n l e
  | TNN_I => quad_a true c mp res vec mat m n l e
  | TNN_II => tnn_ii_a c mp res vec mat m n l e
  | TNN_III => tnn_iii_a c mp res vec mat m n l e
  | TNN_IV => tnn_tc_a false c mp res vec mat m n l e
  | TNN_V => tnn_tc_a true c mp res vec mat m n l e
  end.
End Tnn.
