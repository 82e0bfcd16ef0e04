(** Parasitic resistance solver: /repo/cpp/src/xbar/parasitics.cpp and the
    encoding tables of /repo/cpp/inc/xbar/parasitics.h. *)
From Coq Require Import List ZArith Bool.
From RecordUpdate Require Import RecordSet.
From Verif Require Import Base Machine Json Config.
Import ListNotations RecordSetNotations.
Local Open Scope Z_scope.
Local Open Scope out_scope.

Inductive wenc : Type := WSingle | WDoubleCol | WDoubleRow | WQuad.

(** parasitics.h:100-116; I_TC_W_DIFF has no entry. *)
Definition wenc_of (m : mode) : option wenc :=
  match m with
  | I_TC_W_DIFF => None
  | I_UINT_W_OFFS | BNN_III | BNN_IV => Some WSingle
  | BNN_V => Some WDoubleRow
  | BNN_VI | TNN_I => Some WQuad
  | _ => Some WDoubleCol
  end.

(** parasitics.h:118-134: does the mode use i_enc_double? *)
Definition ienc_double (m : mode) : bool :=
  match m with BNN_V | BNN_VI | TNN_I => true | _ => false end.

(** parasitics.h:136-152: does the mode use o_enc_double? *)
Definition oenc_double (m : mode) : bool :=
  match m with
  | I_UINT_W_OFFS | BNN_III | BNN_IV | BNN_V | TNN_IV | TNN_V => false
  | _ => true
  end.

Section Par.
Context {MC : Machine}.

(** parasitics.h:240-258.  The work vectors vd_, ga_mat_gated_ and ga_col_acc_
    are completely reassigned before every use and are not part of the state. *)
Record psolver : Type := mkPar {
  ps_m : nat; ps_n : nat;      (* m_xbar_, n_xbar_ *)
  ps_w : F; ps_v : F;          (* w_res_, v_read_ *)
  ps_mode : mode;
  ps_ga : list (list F);       (* ga_mat_, empty before the first write *)
  ps_wire : list F             (* ga_wire_ *)
}.
#[export] Instance eta_psolver : Settable _ :=
  settable! mkPar <ps_m; ps_n; ps_w; ps_v; ps_mode; ps_ga; ps_wire>.

(** parasitics.cpp:18-36. *)
Definition par_new (c : config) : out psolver :=
  match wenc_of (m_mode c) with
  | Some _ => Ok (mkPar (Z.to_nat (M c)) (colsN c) (w_res c) (V_read c) (m_mode c) [] [])
  | None => Threw
  end.

(** parasitics.cpp:51-61, the lambda div_v_read: only the first m_xbar_ rows are
    converted, the remaining rows keep the raw HRS current. *)
Definition div_v_read (c : config) (p : psolver) (ia : list (list F)) : out (list (list F)) :=
  forN (ps_m p) (fun m ga => forN (ps_n p) (fun n ga =>
      x <- get2 ia m n ;; set2 ga m n (fdiv x (fneg (ps_v p)))) ga)
    (mat2 (ps_m p * nsplit c) (ps_n p) (HRS c)).

(** std::optional::value(). *)
Definition optval {A} (o : option A) : out A :=
  match o with Some a => Ok a | None => Threw end.

(** parasitics.cpp:130-205, the four weight encodings. *)
Definition encode_w (w : wenc) (p : psolver) (gp : list (list F)) (gm : option (list (list F)))
    (m n : nat) : out (list (list F)) :=
  match w with
  | WSingle =>
      forN m (fun i ga =>
        col <- get gp i ;;
        forN n (fun j ga => x <- get col j ;; set2 ga j i x) ga) (mat2 (ps_n p) m f0)
  | WDoubleCol =>
      forN m (fun i ga =>
        cp <- get gp i ;; gm' <- optval gm ;; cm <- get gm' i ;;
        forN n (fun j ga =>
          x <- get cp j ;; ga <- set2 ga j (2 * i) x ;;
          y <- get cm j ;; set2 ga j (2 * i + 1) y) ga) (mat2 (ps_n p) (m * 2) f0)
  | WDoubleRow =>
      forN m (fun i ga =>
        cp <- get gp i ;; gm' <- optval gm ;; cm <- get gm' i ;;
        forN n (fun j ga =>
          x <- get cp j ;; ga <- set2 ga (2 * j) i x ;;
          y <- get cm j ;; set2 ga (2 * j + 1) i y) ga) (mat2 (ps_n p) m f0)
  | WQuad =>
      forN m (fun i ga =>
        cp <- get gp i ;; gm' <- optval gm ;; cm <- get gm' i ;;
        forN n (fun j ga =>
          x <- get cp j ;; y <- get cm j ;;
          ga <- set2 ga (2 * j) (2 * i) x ;;
          ga <- set2 ga (2 * j + 1) (2 * i) y ;;
          ga <- set2 ga (2 * j) (2 * i + 1) y ;;
          set2 ga (2 * j + 1) (2 * i + 1) x) ga) (mat2 (ps_n p) (m * 2) f0)
  end.

(** parasitics.cpp:38-74; [iam = None] is the one-matrix overload. *)
Definition set_conductance (c : config) (iap : list (list F)) (iam : option (list (list F)))
    (m n : nat) (po : option psolver) : out (option psolver) :=
  match po with
  | None => UB NullDeref
  | Some p =>
      gp <- div_v_read c p iap ;;
      gm <- (match iam with
             | Some ((_ :: _) as ia) => g <- div_v_read c p ia ;; Ok (Some g)
             | _ => Ok None
             end) ;;
      w <- optval (wenc_of (ps_mode p)) ;;
      ga <- encode_w w p gp gm m n ;;
      row0 <- get ga 0 ;;
      let wire := f_of_d (dmul (d_of_f (fdiv (f_of_Z 1) (ps_w p))) (d_lit 1 6)) in
      Ok (Some (p <| ps_ga := ga |> <| ps_wire := repeat wire (List.length row0) |>))
  end.

(** parasitics.cpp:207-222, the two input encodings. *)
Definition encode_i (p : psolver) (vp : list Z) (vm : option (list Z)) (n : nat) : out (list Z) :=
  if ienc_double (ps_mode p) then
    forN n (fun j vd =>
      x <- get vp j ;; vd <- set vd (2 * j) x ;;
      vm' <- optval vm ;; y <- get vm' j ;; set vd (2 * j + 1) y) (repeat 0 (ps_n p))
  else
    forN n (fun j vd => x <- get vp j ;; set vd j x) (repeat 0 (ps_n p)).

(** parasitics.cpp:104-117: parallel row conductance, then the wire in series. *)
Definition col_step (acc g w : F) : F :=
  let a := fadd acc g in fdiv (fmul a w) (fadd a w).

(** parasitics.cpp:97-124 for all columns: one reduction over the gated rows. *)
Definition reduce_cols (ga : list (list F)) (vd : list Z) (wire : list F) (cols nrows : nat)
  : out (list F) :=
  forN nrows (fun n acc =>
    v <- get vd n ;;
    row <- (if v =? 0 then Ok (repeat f0 cols) else get ga n) ;;
    forN cols (fun k acc =>
      a <- get acc k ;; g <- get row k ;; w <- get wire k ;;
      set acc k (col_step a g w)) acc) (repeat f0 cols).

(** parasitics.cpp:224-239, the two output encodings; the result vector is
    resized to m_xbar_. *)
Definition encode_o (p : psolver) (acc : list F) (m : nat) : out (list F) :=
  let nv := fneg (ps_v p) in
  if oenc_double (ps_mode p) then
    forN m (fun i res =>
      x <- get acc (2 * i) ;; y <- get acc (2 * i + 1) ;;
      set res i (fmul (fsub x y) nv)) (repeat f0 (ps_m p))
  else
    forN m (fun i res => x <- get acc i ;; set res i (fmul x nv)) (repeat f0 (ps_m p)).

(** parasitics.cpp:76-128; [vm = []] is the one-vector overload. *)
Definition compute_currents (po : option psolver) (vp vm : list Z) (m n : nat) : out (list F) :=
  match po with
  | None => UB NullDeref
  | Some p =>
      vd <- encode_i p vp (match vm with [] => None | _ => Some vm end) n ;;
      row0 <- get (ps_ga p) 0 ;;
      acc <- reduce_cols (ps_ga p) vd (ps_wire p) (List.length row0) (ps_n p) ;;
      encode_o p acc m
  end.
End Par.
