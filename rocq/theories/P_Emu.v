(** Property theorems C49 and C56: the emulation library and the bit slicing of inputs. *)
From Coq Require Import List ZArith Bool Permutation.
From Verif Require Import Base Machine Mapper Emu Spec EmuProps.
Import ListNotations.
Local Open Scope Z_scope.

(** C49: without a callback the emulated MVM adds the product and nothing else happens. *)
Theorem C49_exact :
  forall (S : Type) (cb : emu S) (s : S) (res vec mat : list Z) (m n : Z),
  cb_mvm cb = None ->
  0 <= m -> 0 <= n -> n * m <= int32_max ->
  m * n <= Z.of_nat (List.length mat) -> n <= Z.of_nat (List.length vec) -> m <= Z.of_nat (List.length res) ->
  (forall i, (i < Z.to_nat m)%nat ->
     Z.abs (nth i res 0) + sum (Z.to_nat n) (fun j => Z.abs (entry mat (Z.to_nat n) i j * nth j vec 0)) <= int32_max) ->
  emu_mvm cb s res vec mat m n = Ok (s, plus_product res mat vec (Z.to_nat m) (Z.to_nat n), 0).
Proof. exact emu_exact. Qed.
Print Assumptions C49_exact.

(** With a callback the effects are the callback's and its return value is dropped. *)
Theorem C49_callback :
  forall (S : Type) (cb : emu S) (s : S) (res vec mat : list Z) (m n : Z)
    (f : S -> list Z -> list Z -> list Z -> Z -> Z -> out (S * list Z * Z)),
  cb_mvm cb = Some f ->
  (forall s' res' k, f s res vec mat m n = Ok (s', res', k) -> emu_mvm cb s res vec mat m n = Ok (s', res', 0)) /\
  (forall s' res' k, emu_mvm cb s res vec mat m n = Ok (s', res', k) ->
     k = 0 /\ exists k', f s res vec mat m n = Ok (s', res', k')).
Proof. exact emu_callback. Qed.
Print Assumptions C49_callback.

Theorem C49_others :
  forall (S : Type) (cb : emu S) (s : S) (mat : list Z) (m n : Z) (s' : S) (k : Z),
  (emu_cpy cb s mat m n = Ok (s', k) -> k = 0 /\ (cb_cpy cb = None -> s' = s)) /\
  (emu_update cb s = Ok (s', k) -> k = 0 /\ (cb_upd cb = None -> s' = s)).
Proof. exact emu_others. Qed.
Print Assumptions C49_others.

Example C49_example :
  emu_mvm (mkEmu nat None None None) 7%nat [10; 20; 30] [1; -2] [3; 4; -5; 6] 2 2 = Ok (7%nat, [5; 3; 30], 0) /\
  emu_mvm (mkEmu nat (Some (fun s res _ _ _ _ => Ok (S s, 99 :: res, 42))) None None) 7%nat [1] [] [] 0 0
    = Ok (8%nat, [99; 1], 0).
Proof. split; reflexivity. Qed.

(** C56: k bit planes recombine to every unsigned k-bit input, k planes and a sign plane to every signed
    (k+1)-bit input. *)
Theorem C56_lossless :
  forall (vd vds : list Z) (n k : nat),
  (k <= 31)%nat -> (n <= List.length vd)%nat -> (n <= List.length vds)%nat ->
  exists planes : nat -> list Z,
    (forall b, (b <= k)%nat -> slice_vd vd vds n (Z.of_nat b) = Ok (planes b)) /\
    forall j, (j < n)%nat ->
      let v := nth j vd 0 in
      (forall b, (b <= k)%nat -> nth j (planes b) 0 = 0 \/ nth j (planes b) 0 = 1) /\
      (0 <= v < 2 ^ Z.of_nat k -> sum k (fun b => 2 ^ Z.of_nat b * nth j (planes b) 0) = v) /\
      (- 2 ^ Z.of_nat k <= v < 2 ^ Z.of_nat k ->
         sum k (fun b => 2 ^ Z.of_nat b * nth j (planes b) 0) - 2 ^ Z.of_nat k * nth j (planes k) 0 = v).
Proof. exact slice_lossless. Qed.
Print Assumptions C56_lossless.

(** Every order of the parallel loop gives the same plane. *)
Theorem C56_any_schedule :
  forall (vd vds : list Z) (is : list nat) (n : nat) (b : Z),
  Permutation is (seq 0 n) -> 0 <= b <= 31 -> (n <= List.length vd)%nat -> (n <= List.length vds)%nat ->
  slice_vd_sched vd vds is b = slice_vd vd vds n b.
Proof. exact slice_any_order. Qed.
Print Assumptions C56_any_schedule.

Example C56_example :
  map (slice_vd [5; -3; 9] [7; 7; 7] 2) [0; 1; 2; 3] =
    [Ok [1; 1; 7]; Ok [0; 0; 7]; Ok [1; 1; 7]; Ok [0; 1; 7]] /\
  slice_vd_sched [5; -3; 9] [7; 7; 7] [1; 0]%nat 2 = Ok [1; 1; 7].
Proof. split; reflexivity. Qed.
