(** Read-disturb model: /repo/cpp/src/xbar/read_disturb.cpp. *)
From Coq Require Import List ZArith Bool.
From RecordUpdate Require Import RecordSet.
From Verif Require Import Base Machine Json Config.
Import ListNotations RecordSetNotations.
Local Open Scope Z_scope.
Local Open Scope out_scope.

Section RD.
Context {MC : Machine}.

(** read_disturb.cpp:22-30: float members initialised from double literals. *)
Definition rd_t0 : F := f_of_d (d_lit 155 (-10)).
Definition rd_fit : F := f_of_d (d_lit 143339 (-5)).
Definition rd_c1 : F := f_of_d (d_lit 68 (-4)).
Definition rd_a : F := f_of_d (d_lit 11 (-2)).
Definition rd_kb : F := f_of_d (d_lit 138064852 (-31)).
Definition rd_T : F := f_of_d (d_lit 300 0).
Definition rd_k : F := f_of_d (d_lit 3 (-3)).
Definition rd_m : F := f_of_d (d_lit 41 (-2)).
Definition rd_kbT : F := f_of_d (ddiv (d_of_f (fmul rd_kb rd_T)) (d_lit 1602176634 (-28))).

(** read_disturb.cpp:99-102. *)
Definition calc_p (v : F) : F := fmul rd_c1 (f_exp (fdiv (fmul rd_a (fabs v)) rd_kbT)).
(** read_disturb.cpp:94-97. *)
Definition calc_exp_tt (v : F) : F := fdiv (f_of_Z 1) (calc_p v).

(** read_disturb.h:46-66; 64-bit counters are unbounded here. *)
Record rdm : Type := mkRd {
  cyc_p : list (list Z); cyc_m : list (list Z);
  con_p : list (list Z); con_m : list (list Z);
  rd_ett : F;   (* exp_tt_ *)
  rd_p : F;     (* p_ *)
  rd_oob : bool (* run_out_of_bounds_ *)
}.
#[export] Instance eta_rdm : Settable _ :=
  settable! mkRd <cyc_p; cyc_m; con_p; con_m; rd_ett; rd_p; rd_oob>.

(** read_disturb.cpp:15-34. *)
Definition rd_new (c : config) (v : F) : rdm :=
  let z := mat2 (rowsN c) (colsN c) 0 in
  mkRd z z z z (calc_exp_tt v) (calc_p v) false.

(** read_disturb.cpp:79: the exponent term, in double. *)
Definition wear (cycles : Z) : D := dmul (d_of_f rd_k) (d_pow (d_of_Z cycles) (d_of_f rd_m)).

(** read_disturb.cpp:78-92: transition time and the updated sticky flag. *)
Definition trans_time (r : rdm) (cycles : Z) : F * bool :=
  let e := wear cycles in
  if dle (d_of_Z 1) e then (f0, true)
  else (f_of_d (dmul (d_of_f (fmul rd_t0 (f_pow rd_fit (rd_ett r))))
                     (d_pow (dsub (d_of_Z 1) e) (d_of_f (rd_ett r)))), rd_oob r).

(** read_disturb.cpp:66-75. *)
Definition g0_factor (c : config) (r : rdm) (reads cycles : Z) : F * bool :=
  let (tt, b) := trans_time r cycles in
  let ts := fmul (f_of_Z reads) (t_read c) in
  if flt ts tt then (f_of_Z 1, b)
  else (f_pow (fdiv ts tt) (fneg (rd_p r)), b).

(** read_disturb.cpp:55-64: the bounds come from cycles_p_. *)
Definition update_cycles (up um : list (list bool)) (r : rdm) : out rdm :=
  let inc (m : list (list Z)) i j (u : list (list bool)) :=
    b <- get2 u i j ;; x <- get2 m i j ;; set2 m i j (x + (if b : bool then 1 else 0)) in
  '(p, m) <- forN (List.length (cyc_p r)) (fun i s =>
       row <- get (cyc_p r) i ;;
       forN (List.length row) (fun j '(p, m) =>
         p' <- inc p i j up ;; m' <- inc m i j um ;; Ok (p', m')) s) (cyc_p r, cyc_m r) ;;
  Ok (r <| cyc_p := p |> <| cyc_m := m |>).

(** read_disturb.cpp:112-119. *)
Definition update_consecutive (c : config) (m n : nat) (r : rdm) : out rdm :=
  let inc (mt : list (list Z)) i j := x <- get2 mt i j ;; set2 mt i j (x + 1) in
  '(p, q) <- forN (m * nsplit c) (fun i s =>
       forN n (fun j '(p, q) => p' <- inc p i j ;; q' <- inc q i j ;; Ok (p', q')) s)
     (con_p r, con_m r) ;;
  Ok (r <| con_p := p |> <| con_m := q |>).

(** read_disturb.cpp:121-128. *)
Definition reset_consecutive (c : config) (r : rdm) : out rdm :=
  '(p, q) <- forN (rowsN c) (fun i s =>
       forN (colsN c) (fun j '(p, q) =>
         p' <- set2 p i j 0 ;; q' <- set2 q i j 0 ;; Ok (p', q')) s) (con_p r, con_m r) ;;
  Ok (r <| con_p := p |> <| con_m := q |>).
End RD.
