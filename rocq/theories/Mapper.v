(** Mapper base class: /repo/cpp/inc/mapping/mapper.h and /repo/cpp/src/mapping/mapper.cpp,
    plus the members of the derived mappers. *)
From Coq Require Import List ZArith Bool String.
From RecordUpdate Require Import RecordSet.
From Verif Require Import Base Machine Json Config Histogram Adc ReadDisturb Parasitics.
Import ListNotations RecordSetNotations.
Local Open Scope Z_scope.
Local Open Scope out_scope.

(** Constructor argument of each derived mapper, e.g. int_i.cpp:20, bnn_v.cpp:18. *)
Definition is_diff (m : mode) : bool :=
  match m with
  | I_UINT_W_OFFS | BNN_III | BNN_IV | BNN_V | TNN_IV | TNN_V => false
  | _ => true
  end.

Section Mapper.
Context {MC : Machine}.

(** mapper.h:83-113 and the private members of the derived classes
    (inc/mapping/*/*.h:33-40).  One record for all classes; vectors a class does not
    have are empty.  [None] for i_mm_, i_step_size_ and delta_ is an indeterminate
    value (members never assigned in digital configurations). *)
Record mapper : Type := mkMapper {
  mp_mode : mode;
  mp_diff : bool;
  gd_p : list (list Z); gd_m : list (list Z);
  shift : list Z;
  sum_w : list Z;
  ia_p : list (list F); ia_m : list (list F);
  ia_p0 : list (list F); ia_m0 : list (list F);     (* ia_p_orig_, ia_m_orig_ *)
  i_step : list (option F);
  nseg : nat;
  i_mm : option F;
  delta : option F;
  mp_adc : adc;
  par : option psolver;
  vd_p : list Z; vd_m : list Z; vd_slice : list Z;
  tmp_int : list Z;
  tmp : list F; tmp_p : list F; tmp_m : list F;
  tmp_lsb : list F; tmp_msb : list F; tmp_fp : list F; res_fp : list F
}.
#[export] Instance eta_mapper : Settable _ :=
  settable! mkMapper <mp_mode; mp_diff; gd_p; gd_m; shift; sum_w; ia_p; ia_m; ia_p0; ia_m0;
    i_step; nseg; i_mm; delta; mp_adc; par; vd_p; vd_m; vd_slice; tmp_int; tmp; tmp_p; tmp_m;
    tmp_lsb; tmp_msb; tmp_fp; res_fp>.

Definition use {A} (o : option A) : out A :=
  match o with Some a => Ok a | None => UB Uninit end.

(** [(1 << k) - 1] in int. *)
Definition ones (k : Z) : out Z := x <- shl32 strict_shl 1 k ;; sub32 x 1.

(** mapper.cpp:65-70: shift amounts; uint32_t subtraction wraps. *)
Fixpoint shifts_from (cur : Z) (split : list Z) : list Z :=
  match split with
  | [] => []
  | s :: r => u32 (cur - s) :: shifts_from (wrap32 (u32 (cur - s))) r
  end.
Definition shifts (c : config) : list Z := shifts_from (wrap32 (W_BIT c)) (SPLIT c).

(** mapper.cpp:73-75. *)
Definition step_sizes (c : config) (imm : option F) : out (list (option F)) :=
  mapM (fun s => d <- ones s ;;
                 Ok (match imm with Some x => Some (fdiv x (f_of_Z d)) | None => None end)) (SPLIT c).

(** int_v.cpp:20-31: the delta factor.  The conditional on the mode is always true
    (the class is only created for I_UINT_W_OFFS); the recomputed shifts are the same. *)
Definition delta_of (c : config) (imm : option F) : out (option F) :=
  d <- forN (List.length (SPLIT c)) (fun i d =>
         sh <- get (shifts c) i ;; s <- get (SPLIT c) i ;;
         a <- shl32 strict_shl 1 sh ;; b <- ones s ;; x <- mul32 a b ;;
         Ok (fadd d (f_of_Z x))) f0 ;;
  Ok (match imm with Some x => Some (fmul (fdiv (HRS c) x) d) | None => None end).

Definition uses_shift (m : mode) : bool :=
  is_int m || match m with TNN_IV => true | _ => false end.

(** mapper.cpp:33-119: base constructor, derived constructor, factory. *)
Definition mapper_new (c : config) : out mapper :=
  let md := m_mode c in
  let R := rowsN c in let C := colsN c in let MM := Z.to_nat (M c) in
  let zg := mat2 R C 0 in
  let ia := mat2 R C (HRS c) in
  a <- adc_new c (adc_type c) ;;
  let imm := if digital_only c then None else Some (fsub (LRS c) (HRS c)) in
  ps <- (if negb (digital_only c) && parasitics c
         then p <- par_new c ;; Ok (Some p) else Ok None) ;;
  st <- (if uses_shift md then step_sizes c imm
         else Ok (repeat (Some f0) (nsplit c))) ;;
  dl <- (match md with I_UINT_W_OFFS => delta_of c imm | _ => Ok (Some f0) end) ;;
  let sh := if uses_shift md then shifts c else repeat 0 (nsplit c) in
  let ns := if uses_shift md then nsplit c else O in
  let zN := repeat 0 C in
  let zM := repeat f0 MM in
  let intm := is_int md in
  Ok (mkMapper md (is_diff md) zg zg sh (repeat 0 MM) ia ia ia ia st ns imm dl a ps
      zN
      (match md with
       | I_DIFF_W_DIFF_1XB | I_DIFF_W_DIFF_2XB
       | BNN_III | BNN_IV | BNN_V | BNN_VI | TNN_I | TNN_IV | TNN_V => zN
       | _ => [] end)
      (if intm then zN else [])
      (if intm then repeat 0 R else [])
      (if intm then [] else zM)
      (match md with BNN_III | BNN_IV => zM | _ => [] end)
      (match md with BNN_III | BNN_IV => zM | _ => [] end)
      (match md with TNN_IV | TNN_V => zM | _ => [] end)
      (match md with TNN_IV | TNN_V => zM | _ => [] end)
      (if intm then repeat f0 R else match md with TNN_IV | TNN_V => zM | _ => [] end)
      (match md with I_UINT_W_OFFS => repeat f0 R | _ => [] end)).

(** ** Digital writes.  Work on the triple (gd_p_, gd_m_, sum_w_). *)
Definition cells : Type := (list (list Z) * list (list Z) * list Z)%type.

(** mapper.cpp:131-141: one weight, all its segments. *)
Definition put_diff (split shs : list Z) (i j : nat) (v : Z)
    (g : list (list Z) * list (list Z)) : out (list (list Z) * list (list Z)) :=
  forN (List.length split) (fun s '(gp, gm) =>
    let idx := (i * List.length split + s)%nat in
    sh <- get shs s ;; sp <- get split s ;;
    if 0 <=? v then
      x <- shr32 v sh ;; o <- ones sp ;;
      gp <- set2 gp idx j (Z.land x o) ;;
      gm <- set2 gm idx j 0 ;;
      Ok (gp, gm)
    else
      gp <- set2 gp idx j 0 ;;
      nv <- neg32 v ;; x <- shr32 nv sh ;; o <- ones sp ;;
      gm <- set2 gm idx j (Z.land x o) ;;
      Ok (gp, gm)) g.

(** The loops of mapper.cpp:121-144, 146-166 and 168-191: row by row, with the int32_t
    row sums of the weights; [put] stores one weight. *)
Definition write_sum
    (put : nat -> nat -> Z -> list (list Z) * list (list Z) -> out (list (list Z) * list (list Z)))
    (mat : list Z) (m n : nat) (st : cells) : out cells :=
  forN m (fun i '(gp, gm, sw) =>
    '(gp, gm, sm) <- forN n (fun j '(gp, gm, sm) =>
        v <- get mat (n * i + j) ;;
        sm <- add32 sm v ;;
        '(gp, gm) <- put i j v (gp, gm) ;;
        Ok (gp, gm, sm)) (gp, gm, 0) ;;
    sw <- set sw i sm ;;
    Ok (gp, gm, sw)) st.

(** The loops of mapper.cpp:193-206, 215-235, bnn_iii.cpp:25-32 and bnn_iv.cpp:25-32:
    no row sums. *)
Definition write_plain
    (put : nat -> nat -> Z -> list (list Z) * list (list Z) -> out (list (list Z) * list (list Z)))
    (mat : list Z) (m n : nat) (st : cells) : out cells :=
  forN m (fun i st => forN n (fun j '(gp, gm, sw) =>
    w <- get mat (n * i + j) ;;
    '(gp, gm) <- put i j w (gp, gm) ;;
    Ok (gp, gm, sw)) st) st.

(** mapper.cpp:121-144. *)
Definition d_write_diff (split shs mat : list Z) (m n : nat) (st : cells) : out cells :=
  write_sum (put_diff split shs) mat m n st.

(** mapper.cpp:153-163 ([tern = false]) and 175-188 ([tern = true]); any other weight exits. *)
Definition put_xnn (tern : bool) (i j : nat) (v : Z) (g : list (list Z) * list (list Z))
  : out (list (list Z) * list (list Z)) :=
  let '(gp, gm) := g in
  if v =? 1 then
    gp <- set2 gp i j v ;; gm <- set2 gm i j 0 ;; Ok (gp, gm)
  else if v =? -1 then
    gp <- set2 gp i j 0 ;; gm <- set2 gm i j (- v) ;; Ok (gp, gm)
  else if tern && (v =? 0) then
    gp <- set2 gp i j 0 ;; gm <- set2 gm i j 0 ;; Ok (gp, gm)
  else Died.

(** mapper.cpp:146-166 ([tern = false]) and 168-191 ([tern = true]). *)
Definition d_write_diff_xnn (tern : bool) (mat : list Z) (m n : nat) (st : cells) : out cells :=
  write_sum (put_xnn tern) mat m n st.

(** mapper.cpp:196-204. *)
Definition put_offs (split shs : list Z) (wbit : Z) (i j : nat) (w : Z)
    (g : list (list Z) * list (list Z)) : out (list (list Z) * list (list Z)) :=
  let '(gp, gm) := g in
  o <- shl32 strict_shl 1 (u32 (wbit - 1)) ;;
  v <- add32 w o ;;
  gp <- forN (List.length split) (fun s gp =>
      sh <- get shs s ;; sp <- get split s ;;
      x <- shr32 v sh ;; o <- ones sp ;;
      set2 gp (i * List.length split + s) j (Z.land x o)) gp ;;
  Ok (gp, gm).

(** mapper.cpp:193-206. *)
Definition d_write_offs (split shs : list Z) (wbit : Z) (mat : list Z) (m n : nat) (st : cells)
  : out cells :=
  write_plain (put_offs split shs wbit) mat m n st.

(** [SPLIT == {1, 1}]. *)
Definition split11 (s : list Z) : bool :=
  match s with [a; b] => (a =? 1) && (b =? 1) | _ => false end.

(** mapper.cpp:217-232; the masks are uint32_t. *)
Definition put_tc (offset : bool) (i j : nat) (w : Z) (g : list (list Z) * list (list Z))
  : out (list (list Z) * list (list Z)) :=
  let '(gp, gm) := g in
  v <- (if offset then add32 w 1 else Ok w) ;;
  gp <- set2 gp i j (Z.land (u32 v) 1) ;;
  gm <- set2 gm i j (Z.shiftr (Z.land (u32 v) 2) 1) ;;
  Ok (gp, gm).

(** mapper.cpp:208-235. *)
Definition d_write_tc (split : list Z) (offset : bool) (mat : list Z) (m n : nat) (st : cells)
  : out cells :=
  if split11 split then write_plain (put_tc offset) mat m n st else Died.

(** bnn_iii.cpp:28-29 ([inv = false]) and bnn_iv.cpp:28-29 ([inv = true]). *)
Definition put_single (inv : bool) (i j : nat) (w : Z) (g : list (list Z) * list (list Z))
  : out (list (list Z) * list (list Z)) :=
  let '(gp, gm) := g in
  x <- (if inv then y <- sub32 w 1 ;; Ok (Z.quot y (-2))
        else y <- add32 w 1 ;; shr32 y 1) ;;
  gp <- set2 gp i j x ;;
  Ok (gp, gm).

(** bnn_iii.cpp:25-32 ([inv = false]) and bnn_iv.cpp:25-32 ([inv = true]). *)
Definition d_write_single (inv : bool) (mat : list Z) (m n : nat) (st : cells) : out cells :=
  write_plain (put_single inv) mat m n st.

(** The d_write override of each class: int_i.cpp:24-27, int_ii.cpp:22-25, int_iii.cpp:22-25,
    int_iv.cpp:22-25, int_v.cpp:36-39, bnn_i.cpp:17-20, bnn_ii.cpp:21-24, bnn_iii/iv,
    bnn_v.cpp:23-26, bnn_vi.cpp:23-26, tnn_*.cpp. *)
Definition d_write (c : config) (mp : mapper) (mat : list Z) (m n : nat) : out mapper :=
  let st := (gd_p mp, gd_m mp, sum_w mp) in
  '(gp, gm, sw) <-
    match mp_mode mp with
    | I_DIFF_W_DIFF_1XB | I_DIFF_W_DIFF_2XB | I_OFFS_W_DIFF | I_TC_W_DIFF | I_UINT_W_DIFF =>
        d_write_diff (SPLIT c) (shift mp) mat m n st
    | I_UINT_W_OFFS => d_write_offs (SPLIT c) (shift mp) (W_BIT c) mat m n st
    | BNN_I | BNN_II | BNN_V | BNN_VI => d_write_diff_xnn false mat m n st
    | BNN_III => d_write_single false mat m n st
    | BNN_IV => d_write_single true mat m n st
    | TNN_I | TNN_II | TNN_III => d_write_diff_xnn true mat m n st
    | TNN_IV => d_write_tc (SPLIT c) false mat m n st
    | TNN_V => d_write_tc (SPLIT c) true mat m n st
    end ;;
  Ok (mp <| gd_p := gp |> <| gd_m := gm |> <| sum_w := sw |>).

(** ** Analog writes *)

(** mapper.cpp:290-307; the k-th sample of the shared generator. *)
Definition add_noise (c : config) (x : F) (mask : Z) (k : nat) : out (F * nat) :=
  if mask =? 0 then
    if fle (HRS_NOISE c) f0 then Ok (x, k) else Ok (fmax (fadd x (noise false k)) f0, S k)
  else if mask =? 1 then
    if fle (LRS_NOISE c) f0 then Ok (x, k) else Ok (fmax (fadd x (noise true k)) f0, S k)
  else Died.

(** Cell current of a stored level: [gd * step + hrs]. *)
Definition level (g : Z) (step hrs : F) : F := fadd (fmul (f_of_Z g) step) hrs.

(** mapper.cpp:237-246 ([both = true]) and 264-272 ([both = false]).  The row count
    is [m_matrix * num_segments_]. *)
Definition a_write_int (c : config) (both : bool) (mp : mapper) (m n : nat) : out mapper :=
  '(ip, im) <- forN (m * nseg mp) (fun i st =>
      o <- get (i_step mp) (i mod nseg mp)%nat ;;
      forN n (fun j '(ip, im) =>
        stp <- use o ;;
        g <- get2 (gd_p mp) i j ;;
        ip <- set2 ip i j (level g stp (HRS c)) ;;
        if both then
          h <- get2 (gd_m mp) i j ;;
          im <- set2 im i j (level h stp (HRS c)) ;;
          Ok (ip, im)
        else Ok (ip, im)) st) (ia_p mp, ia_m mp) ;;
  Ok (mp <| ia_p := ip |> <| ia_m := im |>).

(** One matrix of mapper.cpp:248-262 / 274-284: noisy level into ia and ia_orig. *)
Definition put_noisy (c : config) (gd : list (list Z)) (i j : nat)
    (s : list (list F) * list (list F) * nat) : out (list (list F) * list (list F) * nat) :=
  let '(ia, ia0, k) := s in
  g <- get2 gd i j ;;
  '(x, k) <- add_noise c (level g (fsub (LRS c) (HRS c)) (HRS c)) g k ;;
  ia <- set2 ia i j x ;;
  ia0 <- set2 ia0 i j x ;;
  Ok (ia, ia0, k).

(** mapper.cpp:248-262 ([both = true]) and 274-284 ([both = false]). *)
Definition a_write_xnn (c : config) (both : bool) (mp : mapper) (m n : nat) (e : env)
  : out (mapper * env) :=
  '(ip, ip0, im, im0, k) <- forN m (fun i st => forN n (fun j '(ip, ip0, im, im0, k) =>
      '(ip, ip0, k) <- put_noisy c (gd_p mp) i j (ip, ip0, k) ;;
      if both then
        '(im, im0, k) <- put_noisy c (gd_m mp) i j (im, im0, k) ;;
        Ok (ip, ip0, im, im0, k)
      else Ok (ip, ip0, im, im0, k)) st) (ia_p mp, ia_p0 mp, ia_m mp, ia_m0 mp, draws e) ;;
  Ok (mp <| ia_p := ip |> <| ia_p0 := ip0 |> <| ia_m := im |> <| ia_m0 := im0 |>,
      e <| draws := k |>).

(** The a_write override of each class (e.g. int_i.cpp:29-37, bnn_ii.cpp:26-34,
    bnn_iii.cpp:34-41): currents, then the parasitic solver's conductances.  BNN_II
    passes the two matrices swapped; single-array classes pass ia_p_ only. *)
Definition a_write (c : config) (mp : mapper) (m n : nat) (e : env) : out (mapper * env) :=
  let both := match mp_mode mp with I_UINT_W_OFFS | BNN_III | BNN_IV => false | _ => true end in
  '(mp, e) <- (if is_int (mp_mode mp)
               then mp' <- a_write_int c both mp m n ;; Ok (mp', e)
               else a_write_xnn c both mp m n e) ;;
  if parasitics c then
    let rows := if is_int (mp_mode mp) then (m * nsplit c)%nat else m in
    p <- (match mp_mode mp with
          | I_UINT_W_OFFS | BNN_III | BNN_IV => set_conductance c (ia_p mp) None rows n (par mp)
          | BNN_II => set_conductance c (ia_m mp) (Some (ia_p mp)) rows n (par mp)
          | _ => set_conductance c (ia_p mp) (Some (ia_m mp)) rows n (par mp)
          end) ;;
    Ok (mp <| par := p |>, e)
  else Ok (mp, e).

(** mapper.cpp:470-475, slice_vd.  The parallel std::transform is run in index order here;
    [slice_vd_sched] is the same computation in an arbitrary order. *)
Definition slice_vd_sched (vd vds : list Z) (is : list nat) (bit : Z) : out (list Z) :=
  forL is (fun j s => v <- get vd j ;; x <- shr32 v bit ;; set s j (Z.land x 1)) vds.

Definition slice_vd (vd vds : list Z) (n : nat) (bit : Z) : out (list Z) :=
  forN n (fun j s => v <- get vd j ;; x <- shr32 v bit ;; set s j (Z.land x 1)) vds.

(** mapper.cpp:477-484. *)
Definition add_c2c (c : config) (mp : mapper) (m n : nat) (e : env) : out (mapper * env) :=
  '(ip, im, k) <- forN m (fun i st => forN n (fun j '(ip, im, k) =>
      x <- get2 (ia_p0 mp) i j ;; g <- get2 (gd_p mp) i j ;;
      '(x, k) <- add_noise c x g k ;; ip <- set2 ip i j x ;;
      y <- get2 (ia_m0 mp) i j ;; h <- get2 (gd_m mp) i j ;;
      '(y, k) <- add_noise c y h k ;; im <- set2 im i j y ;;
      Ok (ip, im, k)) st) (ia_p mp, ia_m mp, draws e) ;;
  Ok (mp <| ia_p := ip |> <| ia_m := im |>, e <| draws := k |>).

(** mapper.cpp:486-493. *)
Definition remove_c2c (mp : mapper) (m n : nat) : out mapper :=
  '(ip, im) <- forN m (fun i st => forN n (fun j '(ip, im) =>
      x <- get2 (ia_p0 mp) i j ;; ip <- set2 ip i j x ;;
      y <- get2 (ia_m0 mp) i j ;; im <- set2 im i j y ;;
      Ok (ip, im)) st) (ia_p mp, ia_m mp) ;;
  Ok (mp <| ia_p := ip |> <| ia_m := im |>).

(** ** Read disturb *)

(** One matrix of mapper.cpp:325-360 / 362-399: every LRS cell gets
    LRS * factor(reads, cycles).  [reads i j] is the global counter or the per-cell one.
    Also returns the sticky out-of-range flag of the model. *)
Definition disturb (c : config) (r : rdm) (reads : nat -> nat -> out Z) (gd : list (list Z))
    (cyc : list (list Z)) (ia : list (list F)) (b : bool) : out (list (list F) * bool) :=
  forN (List.length cyc) (fun i st =>
    row <- get cyc i ;;
    forN (List.length row) (fun j '(ia, b) =>
      g <- get2 gd i j ;;
      if g =? 1 then
        k <- reads i j ;;
        cy <- get row j ;;
        let (f, b') := g0_factor c (r <| rd_oob := b |>) k cy in
        ia <- set2 ia i j (fmul (LRS c) f) ;;
        Ok (ia, b')
      else Ok (ia, b)) st) (ia, b).

(** mapper.cpp:325-399: ia_m_ only for differential mappings. *)
Definition rd_update (c : config) (rp rm : nat -> nat -> out Z) (mp : mapper) (r : rdm)
  : out (mapper * rdm) :=
  '(ip, b) <- disturb c r rp (gd_p mp) (cyc_p r) (ia_p mp) (rd_oob r) ;;
  if mp_diff mp then
    '(im, b) <- disturb c r rm (gd_m mp) (cyc_m r) (ia_m mp) b ;;
    Ok (mp <| ia_p := ip |> <| ia_m := im |>, r <| rd_oob := b |>)
  else Ok (mp <| ia_p := ip |>, r <| rd_oob := b |>).

(** mapper.cpp:404-413. *)
Definition check_refresh (c : config) (r : rdm) (reads writes : Z) : bool * rdm :=
  let (tt, b) := trans_time r writes in
  let ts := fmul (f_of_Z reads) (t_read c) in
  (fle (fmul (mitigation_fp c) tt) ts, r <| rd_oob := b |>).

(** One matrix of mapper.cpp:416-466; bounds from the ia matrix, [cyc]/[con] are the
    counters of read_disturb.cpp:104-110, 130-136. *)
Definition refresh_cells (c : config) (gd : list (list Z)) (ia0 : list (list F))
    (st : list (list F) * list (list Z) * list (list Z) * Z * nat)
  : out (list (list F) * list (list Z) * list (list Z) * Z * nat) :=
  let one := f_of_Z 1 in
  let lo := fmul (fsub one (tolerance c)) (LRS c) in
  let hi := fmul (fadd one (tolerance c)) (LRS c) in
  forN (List.length ia0) (fun i st =>
    row <- get ia0 i ;;
    forN (List.length row) (fun j '(ia, cyc, con, cnt, k) =>
      g <- get2 gd i j ;;
      if g =? 1 then
        x <- get2 ia i j ;;
        if flt x lo || flt hi x then
          '(x, k) <- add_noise c (LRS c) 1 k ;;
          ia <- set2 ia i j x ;;
          y <- get2 cyc i j ;; cyc <- set2 cyc i j (y + 1) ;;
          con <- set2 con i j 0 ;;
          cnt <- add32 cnt 1 ;;
          Ok (ia, cyc, con, cnt, k)
        else Ok (ia, cyc, con, cnt, k)
      else Ok (ia, cyc, con, cnt, k)) st) st.

(** mapper.cpp:416-466. *)
Definition cell_refresh (c : config) (mp : mapper) (r : rdm) (e : env)
  : out (mapper * rdm * Z * env) :=
  '(ip, cp, kp, cnt, k) <-
     refresh_cells c (gd_p mp) (ia_p mp) (ia_p mp, cyc_p r, con_p r, 0, draws e) ;;
  if mp_diff mp then
    '(im, cm, km, cnt, k) <-
       refresh_cells c (gd_m mp) (ia_m mp) (ia_m mp, cyc_m r, con_m r, cnt, k) ;;
    Ok (mp <| ia_p := ip |> <| ia_m := im |>,
        r <| cyc_p := cp |> <| con_p := kp |> <| cyc_m := cm |> <| con_m := km |>,
        cnt, e <| draws := k |>)
  else
    Ok (mp <| ia_p := ip |>, r <| cyc_p := cp |> <| con_p := kp |>, cnt, e <| draws := k |>).
End Mapper.
