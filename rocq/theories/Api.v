(** Exported entry points: /repo/cpp/src/interface_pybind.cpp, and load_cfg of
    /repo/cpp/src/helper/config.cpp:43-56. *)
From Coq Require Import List ZArith Bool String.
From RecordUpdate Require Import RecordSet.
From Verif Require Import Base Machine Json Config Histogram Adc ReadDisturb Parasitics Mapper
  IntMappers BnnMappers TnnMappers Crossbar.
Import ListNotations RecordSetNotations.
Local Open Scope Z_scope.
Local Open Scope out_scope.

Section Api.
Context {MC : Machine}.

(** Process state: the Config singleton with its JSON data, the global [xbar]
    pointer (interface_pybind.cpp:30-31), generator and histograms. *)
Record world : Type := mkWorld {
  wcfg : config; wdata : json; wx : option xbar; wenv : env
}.
#[export] Instance eta_world : Settable _ := settable! mkWorld <wcfg; wdata; wx; wenv>.

(** State after loading the library without CFG_FILE. *)
Definition world0 : world := mkWorld config0 JNull None (mkEnv 0 []).

(** What load_cfg finds: no path at all, a file that cannot be opened, a file that
    does not parse (the parser leaves [rest] behind in cfg_data_), a parsed document. *)
Inductive source : Type :=
| NoPath
| CannotOpen
| Unparsable (rest : json)
| Parsed (j : json).

(** Argument of update_config: null pointer, text that does not parse, a document. *)
Inductive update : Type :=
| UNull
| UBad
| UJson (j : json).

Inductive matq : Type := GdP | GdM | CycP | CycM | ConP | ConM.
Inductive numq : Type := NWrite | NMvm | NRead | NRefresh | NCell.

Inductive call : Type :=
| SetConfig (s : source)
| UpdateConfig (u : update)
| CpyMtrx (mat : list Z) (m n : Z)
| ExeMvm (res vec mat : list Z) (m n : Z) (l : string)
| PyMvm (res vec mat : list Z) (m n : Z)
| GetMat (q : matq)
| GetIa (plus : bool)
| GetNum (q : numq)
| GetOob
| GetProfile.

(** Results; [RExc]: the call ended in a C++ exception the caller may catch. *)
Inductive result : Type :=
| RUnit
| RCode (k : Z)
| RRes (k : Z) (res : list Z)
| RMat (m : list (list Z))
| RIa (m : list (list F))
| RNum (z : Z)
| RBool (b : bool)
| RHists (h : hists)
| RExc.

(** make_unique<Crossbar>() followed by the assignment to the global pointer: the new
    object is built first, then the old one is destroyed; if construction throws, the
    pointer keeps its value. *)
Definition replace_xbar (w : world) (r : result) : out (world * result) :=
  match xbar_new (wcfg w) with
  | Ok x => _ <- destroy (wcfg w) (wx w) ;; Ok (w <| wx := Some x |>, r)
  | UB f => UB f
  | Died => Died
  | Threw => Ok (w, RExc)
  end.

(** interface_pybind.cpp:60-69 (the TBB thread limit is not modelled). *)
Definition set_config (w : world) (s : source) : out (world * result) :=
  _ <- destroy (wcfg w) (wx w) ;;
  let w := w <| wx := None |> in
  match s with
  | NoPath => replace_xbar w RUnit
  | CannotOpen => Died
  | Unparsable rest => Ok (w <| wdata := rest |>, RExc)
  | Parsed j =>
      c <- apply_config j (wcfg w) ;;
      replace_xbar (w <| wdata := j |> <| wcfg := c |>) RUnit
  end.

(** interface_pybind.cpp:71-105. *)
Definition update_config (w : world) (u : update) : out (world * result) :=
  match wx w with
  | None => Ok (w, RCode (-1))
  | Some _ =>
      match u with
      | UNull => Ok (w, RCode (-1))
      | UBad => Died
      | UJson upds =>
          '(j, c, updated, recreate) <- update_cfg upds (wdata w) (wcfg w) ;;
          let w := w <| wdata := j |> <| wcfg := c |> in
          if (updated && recreate)%bool then replace_xbar w (RCode 0)
          else Ok (w, RCode 0)
      end
  end.

(** interface_pybind.cpp:133, 183: int32_t compared with uint32_t. *)
Definition too_big (c : config) (m n : Z) : bool := (M c <? u32 m) || (N c <? u32 n).

(** Negative dimensions can only get here when M or N exceeds 2^31 - 1 (or through
    the Python entry point); the behaviour then is not modelled further. *)
Definition dims (m n : Z) : out (nat * nat) :=
  if (m <? 0) || (n <? 0) then UB OutOfBounds else Ok (Z.to_nat m, Z.to_nat n).

(** interface_pybind.cpp:157-193. *)
Definition cpy_mtrx (w : world) (mat : list Z) (m n : Z) : out (world * result) :=
  match wx w with
  | None => Ok (w, RCode (-1))
  | Some x =>
      if too_big (wcfg w) m n then Ok (w, RCode (-1))
      else
        '(m, n) <- dims m n ;;
        '(x, e) <- xwrite (wcfg w) x mat m n (wenv w) ;;
        Ok (w <| wx := Some x |> <| wenv := e |>, RCode 0)
  end.

(** interface_pybind.cpp:107-155. *)
Definition exe_mvm (w : world) (res vec mat : list Z) (m n : Z) (l : string)
  : out (world * result) :=
  match wx w with
  | None => Ok (w, RRes (-1) res)
  | Some x =>
      if too_big (wcfg w) m n then Ok (w, RRes (-1) res)
      else
        '(m, n) <- dims m n ;;
        '(res, x, e) <- xmvm (wcfg w) x res vec mat m n l (wenv w) ;;
        Ok (w <| wx := Some x |> <| wenv := e |>, RRes 0 res)
  end.

(** interface_pybind.cpp:278-292: the Python entry point calls the crossbar directly;
    the layer name is the default "Unknown" (crossbar.h:39). *)
Definition py_mvm (w : world) (res vec mat : list Z) (m n : Z) : out (world * result) :=
  x <- deref (wx w) ;;
  '(m, n) <- dims m n ;;
  '(res, x, e) <- xmvm (wcfg w) x res vec mat m n "Unknown" (wenv w) ;;
  Ok (w <| wx := Some x |> <| wenv := e |>, RRes 0 res).

(** check_xbar, interface_pybind.cpp:43-48, and the crossbar.cpp:266-327 check. *)
Definition checked {A} (o : option A) : out A :=
  match o with Some a => Ok a | None => Died end.

(** interface_pybind.cpp:195-275 and 301-435. *)
Definition get_mat (x : xbar) (q : matq) : out (list (list Z)) :=
  match q with
  | GdP => Ok (gd_p (xm x))
  | GdM => Ok (gd_m (xm x))
  | CycP => r <- checked (xrd x) ;; Ok (cyc_p r)
  | CycM => r <- checked (xrd x) ;; Ok (cyc_m r)
  | ConP => r <- checked (xrd x) ;; Ok (con_p r)
  | ConM => r <- checked (xrd x) ;; Ok (con_m r)
  end.
Definition get_num (x : xbar) (q : numq) : Z :=
  match q with
  | NWrite => n_write x
  | NMvm => n_mvm x
  | NRead => n_read x
  | NRefresh => n_refresh x
  | NCell => n_cell x
  end.

Definition step (w : world) (a : call) : out (world * result) :=
  match a with
  | SetConfig s => set_config w s
  | UpdateConfig u => update_config w u
  | CpyMtrx mat m n => cpy_mtrx w mat m n
  | ExeMvm res vec mat m n l => exe_mvm w res vec mat m n l
  | PyMvm res vec mat m n => py_mvm w res vec mat m n
  | GetMat q => x <- checked (wx w) ;; g <- get_mat x q ;; Ok (w, RMat g)
  | GetIa p => x <- checked (wx w) ;; Ok (w, RIa (if p then ia_p (xm x) else ia_m (xm x)))
  | GetNum q => x <- checked (wx w) ;; Ok (w, RNum (get_num x q))
  | GetOob => x <- checked (wx w) ;; r <- checked (xrd x) ;; Ok (w, RBool (rd_oob r))
  | GetProfile => Ok (w, RHists (histo (wenv w)))
  end.

(** A sequence of calls; stops at undefined behaviour or process termination. *)
Fixpoint run (w : world) (h : list call) : out (world * list result) :=
  match h with
  | [] => Ok (w, [])
  | a :: r => '(w, x) <- step w a ;; '(w, xs) <- run w r ;; Ok (w, x :: xs)
  end.
End Api.
