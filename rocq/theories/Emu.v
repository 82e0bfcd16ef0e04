(** Emulation library: /repo/cpp/src/interface_emu.cpp. *)
From Coq Require Import List ZArith Bool.
From Verif Require Import Base.
Import ListNotations.
Local Open Scope Z_scope.
Local Open Scope out_scope.

(** Callbacks, interface_emu.cpp:15-46: an MVM callback sees all arguments and may change
    the result buffer; its return value is discarded.  [S] is whatever state the
    callbacks share. *)
Record emu (S : Type) : Type := mkEmu {
  cb_mvm : option (S -> list Z -> list Z -> list Z -> Z -> Z -> out (S * list Z * Z));
  cb_cpy : option (S -> list Z -> Z -> Z -> out (S * Z));
  cb_upd : option (S -> out (S * Z))
}.
Arguments cb_mvm {S} _.
Arguments cb_cpy {S} _.
Arguments cb_upd {S} _.

(** interface_emu.cpp:100-105.  [n_matrix * m + n] is computed in int; negative
    dimensions make the loops empty. *)
Definition emu_loop (res vec mat : list Z) (m n : Z) : out (list Z) :=
  forN (Z.to_nat m) (fun i res => forN (Z.to_nat n) (fun j res =>
    a <- mul32 n (Z.of_nat i) ;; k <- add32 a (Z.of_nat j) ;;
    x <- getz mat k ;; y <- get vec j ;; p <- mul32 x y ;;
    addto res i p) res) res.

(** interface_emu.cpp:72-124. *)
Definition emu_mvm {S} (cb : emu S) (s : S) (res vec mat : list Z) (m n : Z) : out (S * list Z * Z) :=
  match cb_mvm cb with
  | None => res <- emu_loop res vec mat m n ;; Ok (s, res, 0)
  | Some f => '(s, res, _) <- f s res vec mat m n ;; Ok (s, res, 0)
  end.

(** interface_emu.cpp:126-160. *)
Definition emu_cpy {S} (cb : emu S) (s : S) (mat : list Z) (m n : Z) : out (S * Z) :=
  match cb_cpy cb with
  | None => Ok (s, 0)
  | Some f => '(s, _) <- f s mat m n ;; Ok (s, 0)
  end.

(** interface_emu.cpp:48-70. *)
Definition emu_update {S} (cb : emu S) (s : S) : out (S * Z) :=
  match cb_upd cb with
  | None => Ok (s, 0)
  | Some f => '(s, _) <- f s ;; Ok (s, 0)
  end.
