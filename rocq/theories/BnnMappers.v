(** MVM of the binary mappers: /repo/cpp/src/mapping/bnn_mapper/*.cpp. *)
From Coq Require Import List ZArith Bool String.
From RecordUpdate Require Import RecordSet.
From Verif Require Import Base Machine Json Config Histogram Adc ReadDisturb Parasitics Mapper IntMappers.
Import ListNotations RecordSetNotations.
Local Open Scope Z_scope.
Local Open Scope out_scope.

Section Bnn.
Context {MC : Machine}.

(** Two-rail encoding of a +1/-1 (or, with [tern], 0) input vector; any other value
    aborts.  bnn_v.cpp:39-50, bnn_vi.cpp:39-50, tnn_i.cpp:39-53, tnn_iv.cpp:50-64.
    (Both stores happen in every branch; their order differs and is immaterial.) *)
Definition two_rail (tern : bool) (vec : list Z) (n : nat) (vp vm : list Z)
  : out (list Z * list Z) :=
  forN n (fun j '(vp, vm) =>
    v <- get vec j ;;
    if v =? 1 then vp <- set vp j 1 ;; vm <- set vm j 0 ;; Ok (vp, vm)
    else if v =? -1 then vm <- set vm j 1 ;; vp <- set vp j 0 ;; Ok (vp, vm)
    else if tern && (v =? 0) then vm <- set vm j 0 ;; vp <- set vp j 0 ;; Ok (vp, vm)
    else Died) (vp, vm).

(** The same loop with the int32_t running sum of the inputs: bnn_iii.cpp:47-59. *)
Definition two_rail_sum (vec : list Z) (n : nat) (vp vm : list Z)
  : out (list Z * list Z * Z) :=
  forN n (fun j '(vp, vm, sm) =>
    v <- get vec j ;;
    sm <- add32 sm v ;;
    if v =? 1 then vp <- set vp j 1 ;; vm <- set vm j 0 ;; Ok (vp, vm, sm)
    else if v =? -1 then vm <- set vm j 1 ;; vp <- set vp j 0 ;; Ok (vp, vm, sm)
    else Died) (vp, vm, 0).

(** The [mat] reads of two cells of a row and a multiplication by the inputs. *)
Definition dsel (a b : list (list Z)) (v : list Z) (t n : nat) : out Z :=
  x <- dterm a b v t n ;; mul32 x 2.

(** bnn_i.cpp:33-35: [(vec + 1) >> 1]. *)
Definition enc_i (v : Z) : out Z := y <- add32 v 1 ;; shr32 y 1.
(** bnn_ii.cpp:37-39: [(vec - 1) / (-2)]. *)
Definition enc_ii (v : Z) : out Z := y <- sub32 v 1 ;; Ok (Z.quot y (-2)).

(** bnn_i.cpp:31-46. *)
Definition bnn_i_d (c : config) (mp : mapper) (res vec mat : list Z) (m n : nat)
  : out (list Z * mapper) :=
  vd <- load vec n enc_i (vd_p mp) ;;
  res <- acc2 m n (dsel (gd_p mp) (gd_m mp) vd) res ;;
  res <- forN m (fun i res => sw <- get (sum_w mp) i ;; subto res i sw) res ;;
  Ok (res, mp <| vd_p := vd |>).

(** bnn_ii.cpp:35-50. *)
Definition bnn_ii_d (c : config) (mp : mapper) (res vec mat : list Z) (m n : nat)
  : out (list Z * mapper) :=
  vd <- load vec n enc_ii (vd_p mp) ;;
  res <- acc2 m n (dsel (gd_m mp) (gd_p mp) vd) res ;;
  res <- forN m (fun i res => sw <- get (sum_w mp) i ;; addto res i sw) res ;;
  Ok (res, mp <| vd_p := vd |>).

(** [2 * (g * a - g * b)]: bnn_iii.cpp:64, bnn_iv.cpp:64. *)
Definition dsel2 (g : list (list Z)) (a b : list Z) (t n : nat) : out Z :=
  x <- dterm1 g a t n ;; y <- dterm1 g b t n ;; d <- sub32 x y ;; mul32 2 d.

(** bnn_iii.cpp:43-67. *)
Definition bnn_iii_d (c : config) (mp : mapper) (res vec mat : list Z) (m n : nat)
  : out (list Z * mapper) :=
  '(vp, vm, sm) <- two_rail_sum vec n (vd_p mp) (vd_m mp) ;;
  res <- forN m (fun i res =>
      res <- subto res i sm ;;
      forN n (fun j res => x <- dsel2 (gd_p mp) vp vm i j ;; addto res i x) res) res ;;
  Ok (res, mp <| vd_p := vp |> <| vd_m := vm |>).

(** bnn_iv.cpp:43-67. *)
Definition bnn_iv_d (c : config) (mp : mapper) (res vec mat : list Z) (m n : nat)
  : out (list Z * mapper) :=
  '(vp, vm, sm) <- two_rail_sum vec n (vd_p mp) (vd_m mp) ;;
  res <- forN m (fun i res =>
      res <- addto res i sm ;;
      forN n (fun j res => x <- dsel2 (gd_p mp) vm vp i j ;; addto res i x) res) res ;;
  Ok (res, mp <| vd_p := vp |> <| vd_m := vm |>).

(** bnn_v.cpp:37-58. *)
Definition bnn_v_d (c : config) (mp : mapper) (res vec mat : list Z) (m n : nat)
  : out (list Z * mapper) :=
  '(vp, vm) <- two_rail false vec n (vd_p mp) (vd_m mp) ;;
  res <- forN m (fun i res =>
      res <- subto res i (Z.of_nat n) ;;
      forN n (fun j res =>
          x <- dterm1 (gd_p mp) vp i j ;; y <- dterm1 (gd_m mp) vm i j ;;
          s <- add32 x y ;; z <- shl32 strict_shl s 1 ;; addto res i z) res) res ;;
  Ok (res, mp <| vd_p := vp |> <| vd_m := vm |>).

(** [gp*vp + gm*vm - gm*vp - gp*vm]: bnn_vi.cpp:54-55, tnn_i.cpp:57-58. *)
Definition dquad (gp gm : list (list Z)) (vp vm : list Z) (t n : nat) : out Z :=
  a <- dterm1 gp vp t n ;; b <- dterm1 gm vm t n ;;
  x <- dterm1 gm vp t n ;; y <- dterm1 gp vm t n ;;
  s <- add32 a b ;; s <- sub32 s x ;; sub32 s y.

(** bnn_vi.cpp:37-58 ([tern = false]) and tnn_i.cpp:37-61 ([tern = true]). *)
Definition quad_d (tern : bool) (c : config) (mp : mapper) (res vec mat : list Z) (m n : nat)
  : out (list Z * mapper) :=
  '(vp, vm) <- two_rail tern vec n (vd_p mp) (vd_m mp) ;;
  res <- acc2 m n (dquad (gd_p mp) (gd_m mp) vp vm) res ;;
  Ok (res, mp <| vd_p := vp |> <| vd_m := vm |>).

(** ** Analog *)

(** [k / i_mm_]. *)
Definition inv_imm (mp : mapper) (k : Z) : out F :=
  x <- use (i_mm mp) ;; Ok (fdiv (f_of_Z k) x).

(** Analog current sum into [t], by the solver or by [term]. *)
Definition currents (c : config) (mp : mapper) (term : nat -> nat -> out F) (vp vm : list Z)
    (m n : nat) (t : list F) : out (list F) :=
  if parasitics c then compute_currents (par mp) vp vm m n
  else facc2 m n term t.

(** bnn_i.cpp:48-71. *)
Definition bnn_i_a (c : config) (mp : mapper) (res vec mat : list Z) (m n : nat) (l : string)
    (e : env) : out (list Z * mapper * env) :=
  vd <- load vec n enc_i (vd_p mp) ;;
  t <- currents c mp (fterm (ia_p mp) (ia_m mp) vd) vd [] m n (fill (tmp mp) f0) ;;
  sc <- inv_imm mp 2 ;;
  '(t, e) <- adc_vec c (mp_adc mp) l m t sc f0 e ;;
  res <- forN m (fun i res =>
      x <- get t i ;; sw <- get (sum_w mp) i ;; res_fadd res i (fsub x (f_of_Z sw))) res ;;
  Ok (res, mp <| vd_p := vd |> <| tmp := t |>, e).

(** bnn_ii.cpp:52-76. *)
Definition bnn_ii_a (c : config) (mp : mapper) (res vec mat : list Z) (m n : nat) (l : string)
    (e : env) : out (list Z * mapper * env) :=
  vd <- load vec n enc_ii (vd_p mp) ;;
  t <- currents c mp (fterm (ia_m mp) (ia_p mp) vd) vd [] m n (fill (tmp mp) f0) ;;
  sc <- inv_imm mp 2 ;;
  '(t, e) <- adc_vec c (mp_adc mp) l m t sc f0 e ;;
  res <- forN m (fun i res =>
      x <- get t i ;; sw <- get (sum_w mp) i ;; res_fadd res i (fadd x (f_of_Z sw))) res ;;
  Ok (res, mp <| vd_p := vd |> <| tmp := t |>, e).

(** bnn_iii.cpp:69-112 ([inv = false]) and bnn_iv.cpp:69-112 ([inv = true]).  The
    accumulations into tmp_out_p_ and tmp_out_m_ share one loop in the source; they
    touch different vectors and are written as two loops here.  tmp_out_ is filled
    and not used. *)
Definition bnn_iii_iv_a (inv : bool) (c : config) (mp : mapper) (res vec mat : list Z) (m n : nat)
    (l : string) (e : env) : out (list Z * mapper * env) :=
  '(vp, vm, sm) <- two_rail_sum vec n (vd_p mp) (vd_m mp) ;;
  tp <- currents c mp (fterm1 (ia_p mp) vp) vp [] m n (fill (tmp_p mp) f0) ;;
  tm <- currents c mp (fterm1 (ia_p mp) vm) vm [] m n (fill (tmp_m mp) f0) ;;
  sc <- inv_imm mp 2 ;;
  nsm <- neg32 sm ;;
  '(tp, e) <- adc_vec c (mp_adc mp) l m tp sc (fmul (f_of_Z nsm) (HRS c)) e ;;
  '(tm, e) <- adc_vec c (mp_adc mp) l m tm sc f0 e ;;
  res <- forN m (fun i res =>
      x <- get tp i ;; y <- get tm i ;;
      res_fadd res i (if inv then fadd (fsub y x) (f_of_Z sm)
                      else fsub (fsub x y) (f_of_Z sm))) res ;;
  Ok (res, mp <| vd_p := vp |> <| vd_m := vm |> <| tmp := fill (tmp mp) f0 |>
              <| tmp_p := tp |> <| tmp_m := tm |>, e).

(** bnn_v.cpp:60-94. *)
Definition bnn_v_a (c : config) (mp : mapper) (res vec mat : list Z) (m n : nat) (l : string)
    (e : env) : out (list Z * mapper * env) :=
  '(vp, vm) <- two_rail false vec n (vd_p mp) (vd_m mp) ;;
  t <- currents c mp (fun i j =>
         x <- fterm1 (ia_p mp) vp i j ;; y <- fterm1 (ia_m mp) vm i j ;; Ok (fadd x y))
       vp vm m n (fill (tmp mp) f0) ;;
  sc <- inv_imm mp 2 ;;
  '(t, e) <- adc_vec c (mp_adc mp) l m t sc (fmul (f_of_Z (- Z.of_nat n)) (HRS c)) e ;;
  res <- forN m (fun i res =>
      x <- get t i ;; res_fadd res i (fsub x (f_of_Z (Z.of_nat n)))) res ;;
  Ok (res, mp <| vd_p := vp |> <| vd_m := vm |> <| tmp := t |>, e).

(** [ip*vp + im*vm - im*vp - ip*vm] in float. *)
Definition fquad (ip im : list (list F)) (vp vm : list Z) (t n : nat) : out F :=
  a <- fterm1 ip vp t n ;; b <- fterm1 im vm t n ;;
  x <- fterm1 im vp t n ;; y <- fterm1 ip vm t n ;;
  Ok (fsub (fsub (fadd a b) x) y).

(** bnn_vi.cpp:60-95 ([tern = false]) and tnn_i.cpp:63-100 ([tern = true]). *)
Definition quad_a (tern : bool) (c : config) (mp : mapper) (res vec mat : list Z) (m n : nat)
    (l : string) (e : env) : out (list Z * mapper * env) :=
  '(vp, vm) <- two_rail tern vec n (vd_p mp) (vd_m mp) ;;
  t <- currents c mp (fquad (ia_p mp) (ia_m mp) vp vm) vp vm m n (fill (tmp mp) f0) ;;
  sc <- inv_imm mp 1 ;;
  '(t, e) <- adc_vec c (mp_adc mp) l m t sc f0 e ;;
  res <- forN m (fun i res => x <- get t i ;; res_fadd res i x) res ;;
  Ok (res, mp <| vd_p := vp |> <| vd_m := vm |> <| tmp := t |>, e).
End Bnn.
