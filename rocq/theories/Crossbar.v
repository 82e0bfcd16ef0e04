(** Crossbar: /repo/cpp/src/xbar/crossbar.cpp. *)
From Coq Require Import List ZArith Bool String.
From RecordUpdate Require Import RecordSet.
From Verif Require Import Base Machine Json Config Histogram Adc ReadDisturb Parasitics Mapper
  IntMappers BnnMappers TnnMappers.
Import ListNotations RecordSetNotations.
Local Open Scope Z_scope.
Local Open Scope out_scope.

Section Xbar.
Context {MC : Machine}.

(** crossbar.h:66-75; the 64-bit counters are unbounded here. *)
Record xbar : Type := mkXbar {
  xm : mapper;
  n_write : Z;       (* write_xbar_counter_ *)
  n_mvm : Z;         (* mvm_counter_ *)
  n_read : Z;        (* consecutive_mvm_counter_ *)
  n_refresh : Z;     (* refresh_xbar_counter_ *)
  n_cell : Z;        (* refresh_cell_counter_ *)
  xrd : option rdm   (* rd_model_ *)
}.
#[export] Instance eta_xbar : Settable _ :=
  settable! mkXbar <xm; n_write; n_mvm; n_read; n_refresh; n_cell; xrd>.

(** crossbar.cpp:15-26. *)
Definition xbar_new (c : config) : out xbar :=
  mp <- mapper_new c ;;
  Ok (mkXbar mp 0 0 0 0 0 (if read_disturb c then Some (rd_new c (V_read c)) else None)).

(** Dereference of a shared_ptr. *)
Definition deref {A} (o : option A) : out A :=
  match o with Some a => Ok a | None => UB NullDeref end.

(** crossbar.cpp:47-57: which cells went from 1 to 0. *)
Definition reset_mask (c : config) (prev cur : list (list Z)) : out (list (list bool)) :=
  forN (rowsN c) (fun i u => forN (colsN c) (fun j u =>
    a <- get2 prev i j ;; b <- get2 cur i j ;;
    if (a =? 1) && (b =? 0) then set2 u i j true else Ok u) u)
  (mat2 (rowsN c) (colsN c) false).

(** crossbar.cpp:28-74.  The two masks share one loop in the source. *)
Definition xwrite (c : config) (x : xbar) (mat : list Z) (m n : nat) (e : env)
  : out (xbar * env) :=
  let x := x <| n_write := n_write x + 1 |> <| n_read := 0 |> in
  x <- (if read_disturb c then
          mp' <- d_write c (xm x) mat m n ;;
          up <- reset_mask c (gd_p (xm x)) (gd_p mp') ;;
          um <- reset_mask c (gd_m (xm x)) (gd_m mp') ;;
          r <- deref (xrd x) ;;
          r <- update_cycles up um r ;;
          r <- (match mitigation c with
                | CELL_BASED => reset_consecutive c r
                | _ => Ok r
                end) ;;
          Ok (x <| xm := mp' |> <| xrd := Some r |>)
        else
          mp' <- d_write c (xm x) mat m n ;; Ok (x <| xm := mp' |>)) ;;
  if digital_only c then Ok (x, e)
  else '(mp', e) <- a_write c (xm x) m n e ;; Ok (x <| xm := mp' |>, e).

(** crossbar.cpp:130-145: the cells reprogrammed by a software refresh and their number. *)
Definition lrs_mask (c : config) (gd : list (list Z)) (cnt : Z) : out (list (list bool) * Z) :=
  forN (rowsN c) (fun i st => forN (colsN c) (fun j '(u, k) =>
    a <- get2 gd i j ;;
    if a =? 1 then u <- set2 u i j true ;; Ok (u, k + 1) else Ok (u, k)) st)
  (mat2 (rowsN c) (colsN c) false, cnt).

(** crossbar.cpp:120-155: the software refresh itself. *)
Definition soft_refresh (c : config) (x : xbar) (r : rdm) (e : env) : out (xbar * env) :=
  '(up, k) <- lrs_mask c (gd_p (xm x)) (n_cell x) ;;
  '(um, k) <- (if mp_diff (xm x) then lrs_mask c (gd_m (xm x)) k
               else Ok (mat2 (rowsN c) (colsN c) false, k)) ;;
  r <- update_cycles up um r ;;
  '(mp', e) <- a_write c (xm x) (Z.to_nat (M c)) (colsN c) e ;;
  Ok (x <| xm := mp' |> <| xrd := Some r |> <| n_refresh := n_refresh x + 1 |>
        <| n_cell := k |> <| n_read := 0 |>, e).

(** [consecutive_mvm_counter_ % CFG.read_disturb_update_freq == 0]. *)
Definition at_update (c : config) (x : xbar) : out bool :=
  if update_freq c =? 0 then UB DivByZero else Ok (n_read x mod update_freq c =? 0).

(** crossbar.cpp:90-185: read disturb after an analog MVM. *)
Definition rd_step (c : config) (x : xbar) (m n : nat) (e : env) : out (xbar * env) :=
  let glob := fun (_ _ : nat) => Ok (n_read x) in
  match mitigation c with
  | MIT_OFF =>
      u <- at_update c x ;;
      if (u : bool) then
        r <- deref (xrd x) ;;
        '(mp', r) <- rd_update c glob glob (xm x) r ;;
        Ok (x <| xm := mp' |> <| xrd := Some r |>, e)
      else Ok (x, e)
  | SOFTWARE =>
      u <- at_update c x ;;
      if (u : bool) then
        r <- deref (xrd x) ;;
        '(mp', r) <- rd_update c glob glob (xm x) r ;;
        let (need, r) := check_refresh c r (n_read x) (n_write x + n_refresh x) in
        let x := x <| xm := mp' |> <| xrd := Some r |> in
        if need then soft_refresh c x r e else Ok (x, e)
      else Ok (x, e)
  | CELL_BASED =>
      r <- deref (xrd x) ;;
      r <- update_consecutive c m n r ;;
      let x := x <| xrd := Some r |> in
      u <- at_update c x ;;
      if (u : bool) then
        '(mp', r) <- rd_update c (get2 (con_p r)) (get2 (con_m r)) (xm x) r ;;
        '(mp', r, cnt, e) <- cell_refresh c mp' r e ;;
        Ok (x <| xm := mp' |> <| xrd := Some r |> <| n_cell := n_cell x + cnt |>, e)
      else Ok (x, e)
  end.

(** crossbar.cpp:76-186. *)
Definition xmvm (c : config) (x : xbar) (res vec mat : list Z) (m n : nat) (l : string) (e : env)
  : out (list Z * xbar * env) :=
  let x := x <| n_mvm := n_mvm x + 1 |> <| n_read := n_read x + 1 |> in
  if digital_only c then
    '(res, mp') <- d_mvm c (xm x) res vec mat m n ;;
    Ok (res, x <| xm := mp' |>, e)
  else
    '(mp, e) <- (if c2c_var c then add_c2c c (xm x) m n e else Ok (xm x, e)) ;;
    '(res, mp, e) <- a_mvm c mp res vec mat m n l e ;;
    mp <- (if c2c_var c then remove_c2c mp m n else Ok mp) ;;
    let x := x <| xm := mp |> in
    '(x, e) <- (if read_disturb c then rd_step c x m n e else Ok (x, e)) ;;
    Ok (res, x, e).

(** crossbar.cpp:188-248: the destructor only prints, except that it terminates the
    process for verbose configurations with a non-integer mode. *)
Definition destroy (c : config) (o : option xbar) : out unit :=
  match o with
  | None => Ok tt
  | Some _ => die_if (verbose c && negb (is_int (m_mode c)))
  end.
End Xbar.
