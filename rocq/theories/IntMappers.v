(** MVM of the integer mappers: /repo/cpp/src/mapping/int_mapper/*.cpp.  The [mat]
    argument is passed by the caller and never read. *)
From Coq Require Import List ZArith Bool String.
From RecordUpdate Require Import RecordSet.
From Verif Require Import Base Machine Json Config Histogram Adc ReadDisturb Parasitics Mapper.
Import ListNotations RecordSetNotations.
Local Open Scope Z_scope.
Local Open Scope out_scope.

Section Int.
Context {MC : Machine}.

(** Split of a signed input vector into positive and negative parts:
    int_i.cpp:49-57 and 96-104. *)
Definition split_pm (vec : list Z) (n : nat) (vp vm : list Z) : out (list Z * list Z) :=
  forN n (fun j '(vp, vm) =>
    v <- get vec j ;;
    if 0 <=? v then
      vp <- set vp j v ;; vm <- set vm j 0 ;; Ok (vp, vm)
    else
      vp <- set vp j 0 ;; nv <- neg32 v ;; vm <- set vm j nv ;; Ok (vp, vm)) (vp, vm).

(** [for n: vd[n] = f(vec[n])]. *)
Definition load (vec : list Z) (n : nat) (f : Z -> out Z) (vd : list Z) : out (list Z) :=
  forN n (fun j vd => v <- get vec j ;; x <- f v ;; set vd j x) vd.

(** [(a[t][n] - b[t][n]) * v[n]] in int32_t. *)
Definition dterm (a b : list (list Z)) (v : list Z) (t n : nat) : out Z :=
  x <- get2 a t n ;; y <- get2 b t n ;; d <- sub32 x y ;; w <- get v n ;; mul32 d w.
(** [(a[t][n] - b[t][n]) * v[n]] in float. *)
Definition fterm (a b : list (list F)) (v : list Z) (t n : nat) : out F :=
  x <- get2 a t n ;; y <- get2 b t n ;; w <- get v n ;; Ok (fmul (fsub x y) (f_of_Z w)).
(** [a[t][n] * v[n]] in int32_t / float. *)
Definition dterm1 (a : list (list Z)) (v : list Z) (t n : nat) : out Z :=
  x <- get2 a t n ;; w <- get v n ;; mul32 x w.
Definition fterm1 (a : list (list F)) (v : list Z) (t n : nat) : out F :=
  x <- get2 a t n ;; w <- get v n ;; Ok (fmul x (f_of_Z w)).

(** [for m, for s: res[m] += tmp[m * split + s] << shift_[s]] (e.g. int_i.cpp:65-69). *)
Definition shift_add (ns m : nat) (shs tmpi res : list Z) : out (list Z) :=
  acc2 m ns (fun i s => t <- get tmpi (i * ns + s) ;; sh <- get shs s ;; shl32 strict_shl t sh) res.

(** int64_t sum of the inputs: int_v.cpp:63-66, tnn_iv.cpp:86-89. *)
Definition sum64 (vec : list Z) (n : nat) : out Z :=
  forN n (fun j s => v <- get vec j ;; chk64 (s + v)) 0.

(** int_i.cpp:40-84. *)
Definition int_i_d (c : config) (mp : mapper) (res vec mat : list Z) (m n : nat)
  : out (list Z * mapper) :=
  let ns := nsplit c in
  '(vp, vm) <- split_pm vec n (vd_p mp) (vd_m mp) ;;
  t1 <- acc2 (m * ns) n (dterm (gd_p mp) (gd_m mp) vp) (fill (tmp_int mp) 0) ;;
  res <- shift_add ns m (shift mp) t1 res ;;
  t2 <- acc2 (m * ns) n (dterm (gd_m mp) (gd_p mp) vm) (fill t1 0) ;;
  res <- shift_add ns m (shift mp) t2 res ;;
  Ok (res, mp <| vd_p := vp |> <| vd_m := vm |> <| tmp_int := t2 |>).

(** int_ii.cpp:38-65. *)
Definition int_ii_d (c : config) (mp : mapper) (res vec mat : list Z) (m n : nat)
  : out (list Z * mapper) :=
  let ns := nsplit c in
  let ib1 := u32 (I_BIT c - 1) in
  vp <- load vec n (fun v => o <- shl32 strict_shl 1 ib1 ;; add32 o v) (vd_p mp) ;;
  t <- acc2 (m * ns) n (dterm (gd_p mp) (gd_m mp) vp) (fill (tmp_int mp) 0) ;;
  res <- forN m (fun i res =>
      res <- forN ns (fun s res =>
          x <- get t (i * ns + s) ;; sh <- get (shift mp) s ;;
          y <- shl32 strict_shl x sh ;; addto res i y) res ;;
      sw <- get (sum_w mp) i ;;
      y <- shl32 strict_shl sw ib1 ;;
      subto res i y) res ;;
  Ok (res, mp <| vd_p := vp |> <| tmp_int := t |>).

(** int_iii.cpp:38-76: uint32_t masks. *)
Definition int_iii_d (c : config) (mp : mapper) (res vec mat : list Z) (m n : nat)
  : out (list Z * mapper) :=
  let ns := nsplit c in
  let ib1 := u32 (I_BIT c - 1) in
  mask <- ones ib1 ;;
  v1 <- load vec n (fun v => Ok (wrap32 (Z.land (u32 mask) (u32 v)))) (vd_p mp) ;;
  t1 <- acc2 (m * ns) n (dterm (gd_p mp) (gd_m mp) v1) (fill (tmp_int mp) 0) ;;
  mask <- shl32 strict_shl 1 ib1 ;;
  v2 <- load vec n (fun v => Ok (wrap32 (Z.land (u32 mask) (u32 v)))) v1 ;;
  t2 <- dec2 (m * ns) n (dterm (gd_p mp) (gd_m mp) v2) t1 ;;
  res <- shift_add ns m (shift mp) t2 res ;;
  Ok (res, mp <| vd_p := v2 |> <| tmp_int := t2 |>).

(** int_iv.cpp:38-60: the inputs are read from [vec] directly. *)
Definition int_iv_d (c : config) (mp : mapper) (res vec mat : list Z) (m n : nat)
  : out (list Z * mapper) :=
  let ns := nsplit c in
  t <- acc2 (m * ns) n (dterm (gd_p mp) (gd_m mp) vec) (fill (tmp_int mp) 0) ;;
  res <- shift_add ns m (shift mp) t res ;;
  Ok (res, mp <| tmp_int := t |>).

(** int_v.cpp:51-81. *)
Definition int_v_d (c : config) (mp : mapper) (res vec mat : list Z) (m n : nat)
  : out (list Z * mapper) :=
  let ns := nsplit c in
  isum <- sum64 vec n ;;
  t <- acc2 (m * ns) n (dterm1 (gd_p mp) vec) (fill (tmp_int mp) 0) ;;
  res <- forN m (fun i res =>
      res <- forN ns (fun s res =>
          x <- get t (i * ns + s) ;; sh <- get (shift mp) s ;;
          y <- shl32 strict_shl x sh ;; addto res i y) res ;;
      y <- shl64 strict_shl isum (u32 (W_BIT c - 1)) ;;
      subto64 res i y) res ;;
  Ok (res, mp <| tmp_int := t |>).

(** [(std::pow(2, shift_[s]) * std::pow(2, i_bit)) / step] in double, passed as float. *)
Definition bit_scale (sh bit : Z) (step : F) : F :=
  f_of_d (ddiv (dmul (dpow2 sh) (dpow2 bit)) (d_of_f step)).

(** The current accumulation of one input slice (e.g. int_i.cpp:113-124); without
    parasitics it adds to [tmp], with parasitics it replaces it. *)
Definition slice_currents (c : config) (mp : mapper) (term : nat -> nat -> out F)
    (vds : list Z) (rows n : nat) (t : list F) : out (list F) :=
  if parasitics c then compute_currents (par mp) vds [] rows n
  else facc2 rows n term t.

(** int_i.cpp:127-136 / 156-165, int_ii.cpp:100-109, ...: conversion of all partial
    sums of one slice, accumulated into [res] ([sub] for the sign bit of int_iii). *)
Definition bit_add (c : config) (mp : mapper) (l : string) (m : nat) (bit : Z) (neg sub : bool)
    (t : list F) (res : list Z) : out (list Z) :=
  let ns := nsplit c in
  forN m (fun i res => forN ns (fun s res =>
    x <- get t (i * ns + s) ;;
    sh <- get (shift mp) s ;; o <- get (i_step mp) s ;; stp <- use o ;;
    y <- adc1 c (mp_adc mp) l x (bit_scale sh bit (if neg then fneg stp else stp)) f0 ;;
    if sub then res_fsub res i y else res_fadd res i y) res) res.

(** One pass over the input bits [0 .. bits): the loops int_i.cpp:109-141, 145-170,
    int_ii.cpp:84-114, int_iii.cpp:95-125, int_iv.cpp:79-109. *)
Definition bit_loop (c : config) (mp : mapper) (l : string) (vd : list Z) (m n : nat)
    (bits : Z) (neg : bool) (st : list Z * list F * list Z) : out (list Z * list F * list Z) :=
  forN (Z.to_nat bits) (fun b '(res, t, vds) =>
    vds <- slice_vd vd vds n (Z.of_nat b) ;;
    t <- slice_currents c mp (fterm (ia_p mp) (ia_m mp) vds) vds (m * nsplit c) n t ;;
    res <- bit_add c mp l m (Z.of_nat b) neg false t res ;;
    Ok (res, fill t f0, vds)) st.

(** int_i.cpp:86-171. *)
Definition int_i_a (c : config) (mp : mapper) (res vec mat : list Z) (m n : nat) (l : string)
  : out (list Z * mapper) :=
  '(vp, vm) <- split_pm vec n (vd_p mp) (vd_m mp) ;;
  '(res, t, vds) <- bit_loop c mp l vp m n (u32 (I_BIT c - 1)) false
                      (res, fill (tmp_fp mp) f0, vd_slice mp) ;;
  '(res, t, vds) <- bit_loop c mp l vm m n (I_BIT c) true (res, t, vds) ;;
  Ok (res, mp <| vd_p := vp |> <| vd_m := vm |> <| tmp_fp := t |> <| vd_slice := vds |>).

(** int_ii.cpp:67-120. *)
Definition int_ii_a (c : config) (mp : mapper) (res vec mat : list Z) (m n : nat) (l : string)
  : out (list Z * mapper) :=
  let ib1 := u32 (I_BIT c - 1) in
  vp <- load vec n (fun v => o <- shl32 strict_shl 1 ib1 ;; add32 o v) (vd_p mp) ;;
  '(res, t, vds) <- bit_loop c mp l vp m n (u32 (I_BIT c + 1)) false
                      (res, fill (tmp_fp mp) f0, vd_slice mp) ;;
  res <- forN m (fun i res =>
      sw <- get (sum_w mp) i ;; y <- shl32 strict_shl sw ib1 ;; subto res i y) res ;;
  Ok (res, mp <| vd_p := vp |> <| tmp_fp := t |> <| vd_slice := vds |>).

(** int_iii.cpp:78-151. *)
Definition int_iii_a (c : config) (mp : mapper) (res vec mat : list Z) (m n : nat) (l : string)
  : out (list Z * mapper) :=
  let ib1 := u32 (I_BIT c - 1) in
  vp <- load vec n (fun v => Ok v) (vd_p mp) ;;
  '(res, t, vds) <- bit_loop c mp l vp m n ib1 false
                      (res, fill (tmp_fp mp) f0, vd_slice mp) ;;
  vds <- slice_vd vp vds n ib1 ;;
  t <- slice_currents c mp (fterm (ia_p mp) (ia_m mp) vds) vds (m * nsplit c) n t ;;
  res <- bit_add c mp l m ib1 false true t res ;;
  Ok (res, mp <| vd_p := vp |> <| tmp_fp := t |> <| vd_slice := vds |>).

(** int_iv.cpp:62-110. *)
Definition int_iv_a (c : config) (mp : mapper) (res vec mat : list Z) (m n : nat) (l : string)
  : out (list Z * mapper) :=
  vp <- load vec n (fun v => Ok v) (vd_p mp) ;;
  '(res, t, vds) <- bit_loop c mp l vp m n (I_BIT c) false
                      (res, fill (tmp_fp mp) f0, vd_slice mp) ;;
  Ok (res, mp <| vd_p := vp |> <| tmp_fp := t |> <| vd_slice := vds |>).

(** int_v.cpp:83-137: accumulation in float, rounding at the end. *)
Definition int_v_a (c : config) (mp : mapper) (res vec mat : list Z) (m n : nat) (l : string)
  : out (list Z * mapper) :=
  let ns := nsplit c in
  vp <- load vec n (fun v => Ok v) (vd_p mp) ;;
  isum <- sum64 vec n ;;
  '(rf, t, vds) <- forN (Z.to_nat (I_BIT c)) (fun b '(rf, t, vds) =>
      vds <- slice_vd vp vds n (Z.of_nat b) ;;
      t <- slice_currents c mp (fterm1 (ia_p mp) vds) vds (m * ns) n t ;;
      rf <- forN m (fun i rf => forN ns (fun s rf =>
          x <- get t (i * ns + s) ;;
          sh <- get (shift mp) s ;; o <- get (i_step mp) s ;; stp <- use o ;;
          y <- adc1 c (mp_adc mp) l x (bit_scale sh (Z.of_nat b) stp) f0 ;;
          faddto rf i y) rf) rf ;;
      Ok (rf, fill t f0, vds)) (fill (res_fp mp) f0, fill (tmp_fp mp) f0, vd_slice mp) ;;
  '(res, rf) <- forN m (fun i '(res, rf) =>
      d <- use (delta mp) ;;
      o <- shl32 strict_shl 1 (u32 (W_BIT c - 1)) ;;
      rf <- fsubto rf i (fmul (f_of_Z isum) (fadd d (f_of_Z o))) ;;
      x <- get rf i ;;
      y <- f2i (fround x) ;;
      res <- addto res i y ;;
      Ok (res, rf)) (res, rf) ;;
  Ok (res, mp <| vd_p := vp |> <| tmp_fp := t |> <| vd_slice := vds |> <| res_fp := rf |>).
End Int.
