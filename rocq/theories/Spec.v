(** Specification vocabulary.  Plain integer mathematics and the value domains of the
    mapping modes; nothing here refers to how the simulator computes. *)
From Coq Require Import List ZArith Bool String.
From Verif Require Import Base Machine Json Config ReadDisturb Mapper Crossbar Api.
Import ListNotations.
Local Open Scope Z_scope.

Definition total (l : list Z) : Z := fold_right Z.add 0 l.
Definition sum (n : nat) (f : nat -> Z) : Z := total (map f (seq 0 n)).

(** Entry (i, j) of a row-major matrix with n columns. *)
Definition entry (mat : list Z) (n i j : nat) : Z := nth (n * i + j) mat 0.

(** Row i of the matrix-vector product. *)
Definition product (mat vec : list Z) (n i : nat) : Z :=
  sum n (fun j => entry mat n i j * nth j vec 0).

(** [res] with the product added to its first m entries. *)
Definition plus_product (res mat vec : list Z) (m n : nat) : list Z :=
  map (fun i => nth i res 0 + (if (i <? m)%nat then product mat vec n i else 0))
      (seq 0 (List.length res)).

Definition int32_max : Z := 2147483647.

Section Spec.
Context {MC : Machine}.

(** Weights a mode is meant for. *)
Definition weight_in (c : config) (w : Z) : Prop :=
  match m_mode c with
  | I_DIFF_W_DIFF_1XB | I_DIFF_W_DIFF_2XB | I_OFFS_W_DIFF | I_TC_W_DIFF | I_UINT_W_DIFF =>
      - 2 ^ W_BIT c < w < 2 ^ W_BIT c
  | I_UINT_W_OFFS => - 2 ^ (W_BIT c - 1) <= w < 2 ^ (W_BIT c - 1)
  | BNN_I | BNN_II | BNN_III | BNN_IV | BNN_V | BNN_VI => w = 1 \/ w = -1
  | TNN_I | TNN_II | TNN_III | TNN_IV | TNN_V => w = 1 \/ w = -1 \/ w = 0
  end.

(** Inputs a mode is meant for. *)
Definition input_in (c : config) (v : Z) : Prop :=
  match m_mode c with
  | I_DIFF_W_DIFF_1XB | I_DIFF_W_DIFF_2XB | I_OFFS_W_DIFF | I_TC_W_DIFF =>
      - 2 ^ (I_BIT c - 1) <= v < 2 ^ (I_BIT c - 1)
  | I_UINT_W_DIFF | I_UINT_W_OFFS => 0 <= v < 2 ^ I_BIT c
  | BNN_I | BNN_II | BNN_III | BNN_IV | BNN_V | BNN_VI => v = 1 \/ v = -1
  | TNN_I | TNN_II | TNN_III | TNN_IV | TNN_V => v = 1 \/ v = -1 \/ v = 0
  end.

(** SPLIT covers the weight bits (integer modes only). *)
Definition split_covers (c : config) : Prop :=
  is_int (m_mode c) = true -> total (SPLIT c) = W_BIT c /\ 1 <= W_BIT c <= 30.

(** Bit widths small enough for 32-bit products (integer modes only). *)
Definition widths_fit (c : config) : Prop :=
  is_int (m_mode c) = true -> 1 <= I_BIT c /\ W_BIT c + I_BIT c <= 30.

(** Bound on the magnitude of one product term, with the encodings' slack. *)
Definition term_bound (c : config) : Z :=
  if is_int (m_mode c) then 2 ^ (W_BIT c + I_BIT c) else 3.

(** Dimensions that fit the crossbar. *)
Definition dims_in (c : config) (m n : Z) : Prop := 0 <= m <= M c /\ 0 <= n <= N c.

(** Every entry of the first m rows and n columns. *)
Definition all_entries (P : Z -> Prop) (mat : list Z) (m n : Z) : Prop :=
  Z.of_nat (List.length mat) >= m * n /\
  forall i j, (i < Z.to_nat m)%nat -> (j < Z.to_nat n)%nat -> P (entry mat (Z.to_nat n) i j).
Definition all_first (P : Z -> Prop) (vec : list Z) (n : Z) : Prop :=
  Z.of_nat (List.length vec) >= n /\ forall j, (j < Z.to_nat n)%nat -> P (nth j vec 0).

(** The accumulator has room for m rows of n products. *)
Definition room (c : config) (res : list Z) (m n : Z) : Prop :=
  n * term_bound c <= int32_max /\
  all_first (fun x => Z.abs x + n * term_bound c <= int32_max) res m.
End Spec.

(** config.h:36-58 lists these keys; a change of any other key keeps the crossbar. *)
Definition structural_keys : list string :=
  ["W_BIT"; "M"; "N"; "SPLIT"; "digital_only"; "HRS"; "LRS"; "adc_type"; "resolution";
   "adc_profile"; "adc_calib_mode"; "adc_calib_dict"; "m_mode"; "HRS_NOISE"; "LRS_NOISE";
   "read_disturb"; "V_read"; "t_read"; "read_disturb_update_freq";
   "read_disturb_mitigation_strategy"; "read_disturb_mitigation_fp";
   "read_disturb_update_tolerance"; "parasitics"]%string.

(** Calls that leave the stored matrix alone. *)
Definition quiet {MC : Machine} (a : call) : Prop :=
  match a with
  | SetConfig _ => False
  | CpyMtrx _ _ _ => False
  | UpdateConfig (UJson u) => forall k, In k structural_keys -> ~ In k (map fst (jitems u))
  | _ => True
  end.

(** ** Histories *)
Section Hist.
Context {MC : Machine}.

(** Calls that cannot create a crossbar. *)
Definition no_create (a : call) : Prop :=
  match a with
  | SetConfig _ => False
  | UpdateConfig (UJson u) => forall k, In k structural_keys -> ~ In k (map fst (jitems u))
  | _ => True
  end.

(** Successful writes and MVMs of a history. *)
Definition wrote (a : call) (r : result) : bool :=
  match a, r with CpyMtrx _ _ _, RCode k => k =? 0 | _, _ => false end.
Definition multiplied (a : call) (r : result) : bool :=
  match a, r with
  | ExeMvm _ _ _ _ _ _, RRes k _ => k =? 0
  | PyMvm _ _ _ _ _, RRes k _ => k =? 0
  | _, _ => false
  end.
Definition writes (t : list (call * result)) : Z :=
  Z.of_nat (List.length (filter (fun '(a, r) => wrote a r) t)).
Definition mvms (t : list (call * result)) : Z :=
  Z.of_nat (List.length (filter (fun '(a, r) => multiplied a r) t)).

(** MVMs after the last write of [t], which follows [k] MVMs. *)
Fixpoint reads_since (k : Z) (t : list (call * result)) : Z :=
  match t with
  | [] => k
  | (a, r) :: t' => reads_since (if wrote a r then 0 else if multiplied a r then k + 1 else k) t'
  end.

(** The update gives key [k] the value it has, or deletes nothing. *)
Definition same_value (j : json) (kv : string * json) : Prop :=
  match jat j (fst kv) with
  | Some cur => jeqb cur (snd kv) = true
  | None => snd kv = JNull
  end.

(** r rows of c entries. *)
Definition dims2 {A} (r c : Z) (g : list (list A)) : Prop :=
  Z.of_nat (List.length g) = r /\ Forall (fun row => Z.of_nat (List.length row) = c) g.

(** A crossbar as it comes out of the constructor. *)
Definition zeros (r c : Z) : list (list Z) := repeat (repeat 0 (Z.to_nat c)) (Z.to_nat r).
Definition blank (c : config) (x : xbar) : Prop :=
  n_write x = 0 /\ n_mvm x = 0 /\ n_read x = 0 /\ n_refresh x = 0 /\ n_cell x = 0 /\
  gd_p (xm x) = zeros (M c * Z.of_nat (List.length (SPLIT c))) (N c) /\
  gd_m (xm x) = zeros (M c * Z.of_nat (List.length (SPLIT c))) (N c) /\
  (forall r, xrd x = Some r ->
     cyc_p r = zeros (M c * Z.of_nat (List.length (SPLIT c))) (N c) /\
     cyc_m r = zeros (M c * Z.of_nat (List.length (SPLIT c))) (N c) /\ rd_oob r = false).

(** ** Stored cells *)
Definition cell (g : list (list Z)) (r k : nat) : Z := nth k (nth r g []) 0.

Definition current (g : list (list F)) (r k : nat) : F := nth k (nth r g []) f0.
(** The call writes or reads row i, column j. *)
Definition covers (a : call) (i j : nat) : bool :=
  match a with
  | CpyMtrx _ m n | ExeMvm _ _ _ m n _ | PyMvm _ _ _ m n => (Z.of_nat i <? m) && (Z.of_nat j <? n)
  | _ => false
  end.

(** Rows of cells per weight row. *)
Definition rows_per_weight (c : config) : Z :=
  if is_int (m_mode c) then Z.of_nat (List.length (SPLIT c)) else 1.

(** Exponent of slice [s]: SPLIT lists the slice widths from the most significant one down. *)
Definition position (c : config) (s : nat) : Z := W_BIT c - total (firstn (S s) (SPLIT c)).

(** The integer that the cells of weight (i, j) denote. *)
Definition recombined (c : config) (gp gm : list (list Z)) (i j : nat) : Z :=
  let ns := List.length (SPLIT c) in
  match m_mode c with
  | I_UINT_W_OFFS => sum ns (fun s => cell gp (i * ns + s) j * 2 ^ position c s) - 2 ^ (W_BIT c - 1)
  | _ => sum ns (fun s => (cell gp (i * ns + s) j - cell gm (i * ns + s) j) * 2 ^ position c s)
  end.

(** A non-negative number without its bits below position [k]. *)
Definition clear_low (k v : Z) : Z := v - v mod 2 ^ k.
(** The weight that survives when the slices do not reach down to bit 0. *)
Definition truncated (c : config) (w : Z) : Z :=
  let k := W_BIT c - total (SPLIT c) in
  match m_mode c with
  | I_UINT_W_OFFS => clear_low k (w + 2 ^ (W_BIT c - 1)) - 2 ^ (W_BIT c - 1)
  | _ => Z.sgn w * clear_low k (Z.abs w)
  end.

(** The cells of the first m rows and n columns denote [val] of the written weights, every slice
    is within its width, and no cell pair is non-zero on both sides. *)
Definition decodes (c : config) (gp gm : list (list Z)) (val : Z -> Z) (mat : list Z) (m n : Z) : Prop :=
  forall i j, (i < Z.to_nat m)%nat -> (j < Z.to_nat n)%nat ->
    recombined c gp gm i j = val (entry mat (Z.to_nat n) i j) /\
    forall s, (s < List.length (SPLIT c))%nat ->
      let p := cell gp (i * List.length (SPLIT c) + s) j in
      let q := cell gm (i * List.length (SPLIT c) + s) j in
      0 <= p < 2 ^ nth s (SPLIT c) 0 /\ 0 <= q < 2 ^ nth s (SPLIT c) 0 /\ (p = 0 \/ q = 0).

(** ** Reading fewer rows or columns than were written *)

(** Factor with which a mode's result depends on the row sums kept since the last write. *)
Definition row_sum_factor (c : config) : Z :=
  match m_mode c with
  | BNN_I | TNN_III => 1
  | BNN_II => -1
  | I_OFFS_W_DIFF => 2 ^ (I_BIT c - 1)
  | _ => 0
  end.
(** [n] columns were written, [k] are read: the row sums still contain the other columns. *)
Definition narrow_product (c : config) (res mat vec : list Z) (m n k : nat) : list Z :=
  map (fun i => nth i res 0 +
         (if (i <? m)%nat
          then sum k (fun j => entry mat n i j * nth j vec 0)
               - row_sum_factor c * (sum n (entry mat n i) - sum k (entry mat n i))
          else 0)) (seq 0 (List.length res)).

(** No access outside an object and no escaping exception. *)
Definition memory_safe {A} (o : out A) : Prop :=
  o <> UB OutOfBounds /\ o <> UB NullDeref /\ o <> Threw.

(** ** Validation *)

(** Modes whose writes / MVMs check the domain of their data. *)
Definition checks_weights (m : mode) : bool :=
  match m with BNN_I | BNN_II | BNN_V | BNN_VI | TNN_I | TNN_II | TNN_III => true | _ => false end.
Definition accepts_weights (m : mode) : bool :=
  match m with BNN_III | BNN_IV | TNN_IV | TNN_V => true | _ => false end.
Definition checks_inputs (m : mode) : bool :=
  match m with BNN_III | BNN_IV | BNN_V | BNN_VI | TNN_I | TNN_IV | TNN_V => true | _ => false end.
Definition accepts_inputs (m : mode) : bool :=
  match m with BNN_I | BNN_II | TNN_II | TNN_III => true | _ => false end.
(** The input a mode without a check computes with. *)
Definition effective (m : mode) (v : Z) : Z :=
  match m with
  | BNN_I => 2 * ((v + 1) / 2) - 1
  | BNN_II => 1 - 2 * Z.quot (v - 1) (-2)
  | TNN_II => if v =? 0 then 0 else if v =? -1 then -1 else 1
  | TNN_III => (v + 1) mod 4 - 1
  | _ => v
  end.

(** ** Configurations *)

(** Modes whose converter sees non-negative currents only. *)
Definition single_ended : list mode := [I_UINT_W_OFFS; BNN_III; BNN_IV; BNN_V; TNN_IV; TNN_V].

(** What the simulator promises to support. *)
Definition supported (c : config) : Prop :=
  1 <= M c /\ 1 <= N c /\
  (is_int (m_mode c) = true -> 1 <= W_BIT c /\ 1 <= I_BIT c) /\
  (m_mode c = TNN_IV \/ m_mode c = TNN_V -> W_BIT c = 2 /\ SPLIT c = [1; 1]) /\
  (digital_only c = false ->
     fle (HRS c) f0 = false /\ fle (LRS c) f0 = false /\
     (adc_type c = SYM_RANGE_ADC -> ~ In (m_mode c) single_ended) /\
     (adc_type c = POS_RANGE_ONLY_ADC -> In (m_mode c) single_ended) /\
     (is_int (m_mode c) = true -> d2d_var c && c2c_var c = false) /\
     (read_disturb c = true ->
        is_int (m_mode c) = false /\ fle f0 (V_read c) = false /\
        (mitigation c = SOFTWARE -> flt (mitigation_fp c) (f_of_Z 1) = false) /\
        (mitigation c = CELL_BASED -> flt (tolerance c) f0 = false /\ flt (f_of_Z 1) (tolerance c) = false)) /\
     (parasitics c = true -> fle f0 (V_read c) = false /\ feq (w_res c) f0 = false)).

(** [c] and [c'] agree on every setting their own branches look at. *)
Definition agree (c c' : config) : Prop :=
  M c' = M c /\ N c' = N c /\ m_mode c' = m_mode c /\ digital_only c' = digital_only c /\
  verbose c' = verbose c /\ SPLIT c' = SPLIT c /\
  (is_int (m_mode c) = true -> W_BIT c' = W_BIT c /\ I_BIT c' = I_BIT c) /\
  (m_mode c = TNN_IV \/ m_mode c = TNN_V -> W_BIT c' = W_BIT c) /\
  (digital_only c = false ->
     HRS c' = HRS c /\ LRS c' = LRS c /\ adc_type c' = adc_type c /\
     HRS_NOISE c' = HRS_NOISE c /\ LRS_NOISE c' = LRS_NOISE c /\
     d2d_var c' = d2d_var c /\ c2c_var c' = c2c_var c /\
     read_disturb c' = read_disturb c /\ parasitics c' = parasitics c /\
     (adc_type c <> INF_ADC ->
        resolution c' = resolution c /\ adc_calib_mode c' = adc_calib_mode c /\ adc_profile c' = adc_profile c /\
        (adc_calib_mode c = CAL_CALIB -> adc_calib_dict c' = adc_calib_dict c) /\
        (adc_profile c = true -> bin_size c' = bin_size c)) /\
     (read_disturb c = true \/ parasitics c = true -> V_read c' = V_read c) /\
     (read_disturb c = true ->
        t_read c' = t_read c /\ update_freq c' = update_freq c /\ mitigation c' = mitigation c /\
        (mitigation c = SOFTWARE -> mitigation_fp c' = mitigation_fp c) /\
        (mitigation c = CELL_BASED -> tolerance c' = tolerance c)) /\
     (parasitics c = true -> w_res c' = w_res c)).

(** [c'] keeps every setting of [c] that the branch [c'] is in does not look at. *)
Definition keeps_rest (c c' : config) : Prop :=
  (is_int (m_mode c') = false -> I_BIT c' = I_BIT c) /\
  (digital_only c' = true ->
     HRS c' = HRS c /\ LRS c' = LRS c /\ adc_type c' = adc_type c /\
     HRS_NOISE c' = HRS_NOISE c /\ LRS_NOISE c' = LRS_NOISE c /\
     d2d_var c' = d2d_var c /\ c2c_var c' = c2c_var c /\
     read_disturb c' = read_disturb c /\ parasitics c' = parasitics c) /\
  (digital_only c' = true \/ adc_type c' = INF_ADC ->
     resolution c' = resolution c /\ adc_calib_mode c' = adc_calib_mode c /\ adc_profile c' = adc_profile c) /\
  (digital_only c' = true \/ adc_type c' = INF_ADC \/ adc_calib_mode c' = CAL_MAX ->
     adc_calib_dict c' = adc_calib_dict c) /\
  (digital_only c' = true \/ adc_type c' = INF_ADC \/ adc_profile c' = false -> bin_size c' = bin_size c) /\
  (digital_only c' = true \/ read_disturb c' = false ->
     t_read c' = t_read c /\ update_freq c' = update_freq c /\ mitigation c' = mitigation c) /\
  (digital_only c' = true \/ read_disturb c' = false \/ mitigation c' <> SOFTWARE ->
     mitigation_fp c' = mitigation_fp c) /\
  (digital_only c' = true \/ read_disturb c' = false \/ mitigation c' <> CELL_BASED ->
     tolerance c' = tolerance c) /\
  (digital_only c' = true -> V_read c' = V_read c /\ w_res c' = w_res c).

(** Calls that do not touch the configuration. *)
Definition no_config (a : call) : Prop :=
  match a with SetConfig _ | UpdateConfig _ => False | _ => True end.

(** What a client sees of a call or of a history, including how it fails. *)
Definition seen {A} (o : out (world * A)) : out A :=
  match o with Ok (_, r) => Ok r | UB f => UB f | Died => Died | Threw => Threw end.
End Hist.
