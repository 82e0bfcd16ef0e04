(** Analog MVMs of binary and ternary modes that are exact in single precision. *)
From Coq Require Import String List ZArith Bool Arith Lia ZifyBool ZifyNat.
From RecordUpdate Require Import RecordSet.
From Flocq Require Import Core BinarySingleNaN.
From Verif Require Import Base Lib Hoare Machine Json Config Histogram Adc ReadDisturb Parasitics
  Mapper IntMappers BnnMappers TnnMappers WriteProofs Shape MvmShape DigMvm DigModes FloatMachine Exact32.
Import ListNotations RecordSetNotations.
Local Open Scope Z_scope.
Local Open Scope out_scope.

Ltac Zify.zify_post_hook ::= idtac.

Section X.
Context (powf : b32 -> b32 -> b32) (pow : b64 -> b64 -> b64) (expf : b32 -> b32) (nz : bool -> nat -> b32) (strict : bool).
Notation FM := (F_machine powf pow expf nz strict).
#[local] Hint Extern 0 Machine => exact (F_machine powf pow expf nz strict) : typeclass_instances.
Notation len := List.length.

Lemma v_of z : Z.abs z < lim -> val 0 (@f_of_Z FM z) z.
Proof. exact (val_of z). Qed.
Lemma v_add x y a b : val 0 x a -> val 0 y b -> Z.abs (a + b) < lim -> val 0 (@fadd FM x y) (a + b).
Proof. intros. apply val_add; auto; lia. Qed.
Lemma v_sub x y a b : val 0 x a -> val 0 y b -> Z.abs (a - b) < lim -> val 0 (@fsub FM x y) (a - b).
Proof. intros. apply val_sub; auto; lia. Qed.
Lemma v_mul x y a b : val 0 x a -> val 0 y b -> Z.abs (a * b) < lim -> val 0 (@fmul FM x y) (a * b).
Proof. intros. apply (val_mul 0 0); auto; lia. Qed.
Lemma v_f2i x z : val 0 x z -> Z.abs z < lim -> @f2i FM x = Ok z.
Proof.
  intros H Hz. destruct (val_trunc x z H) as [H1 H2]. unfold f2i. cbn [f_trunc F_machine]. rewrite H1, H2.
  unfold in32, int_min, int_max. now replace (_ && _)%bool with true by lia.
Qed.
Lemma v_eq x a b : val 0 x a -> a = b -> val 0 x b.
Proof. now intros H <-. Qed.

(** *** Loops *)
Fixpoint fsum (k : nat) (x : @F FM) (tv : nat -> @F FM) : @F FM :=
  match k with O => x | S k' => @fadd FM (fsum k' x tv) (tv k') end.
Lemma facc_entry n (term : nat -> out (@F FM)) (tv : nat -> @F FM) i (a : list (@F FM)) :
  (i < len a)%nat -> (forall j, (j < n)%nat -> term j = Ok (tv j)) ->
  forN n (fun j b => e <- term j ;; @faddto FM b i e) a = Ok (upd a i (fsum n (nth i a (@f0 FM)) tv)).
Proof.
  intros Hi Ht.
  apply (entry_eq n _ (fun j x => @fadd FM x (tv j)) i a (@f0 FM) (fun k => fsum k (nth i a (@f0 FM)) tv)); auto.
  intros j b Hj Hl Hv. rewrite Ht by auto. cbn [bind]. unfold faddto.
  rewrite (get_ok b i (@f0 FM)) by lia. cbn [bind]. now rewrite set_ok by lia.
Qed.
Lemma facc_fill r n term (tv : nat -> nat -> @F FM) (arr : list (@F FM)) : (r <= len arr)%nat ->
  (forall i j, (i < r)%nat -> (j < n)%nat -> term i j = Ok (tv i j)) ->
  exists t, @facc2 FM r n term (fill arr (@f0 FM)) = Ok t /\ len t = len arr /\
    forall i, (i < r)%nat -> nth i t (@f0 FM) = fsum n (@f0 FM) (tv i).
Proof.
  intros Hr Ht. exists (upto r (fun i x => fsum n x (tv i)) (fill arr (@f0 FM))). split; [|split].
  - unfold facc2. apply (rows_eq r _ (fun i x => fsum n x (tv i)) _ (@f0 FM)); [now rewrite fill_length|].
    intros i a Hi Hl _. rewrite fill_length in Hl. apply facc_entry; [lia|auto].
  - now rewrite upto_length, fill_length.
  - intros i Hi. rewrite nth_upto_lt by (rewrite ?fill_length; lia). now rewrite nth_fill by lia.
Qed.
Lemma v_fsum n tv (T : nat -> Z) : (forall j, (j < n)%nat -> val 0 (tv j) (T j)) ->
  (forall k, (k <= n)%nat -> Z.abs (sumZ k T) < lim) -> val 0 (fsum n (@f0 FM) tv) (sumZ n T).
Proof.
  induction n as [|n IH]; intros Ht Hb; cbn [fsum sumZ].
  - apply v_of. reflexivity.
  - apply v_add; [apply IH; intros; [apply Ht|apply Hb]; lia|apply Ht; lia|exact (Hb (S n) (le_n _))].
Qed.
Lemma sumZ_part n k (T : nat -> Z) b : (forall j, (j < n)%nat -> Z.abs (T j) <= b) -> 0 <= b -> Z.of_nat n * b < lim ->
  (k <= n)%nat -> Z.abs (sumZ k T) < lim.
Proof.
  intros HT Hb Hn Hk. pose proof (sumZ_bound k T b) as H. specialize (H ltac:(intros; apply HT; lia)). nia.
Qed.

Section M.
Context (c : @config FM) (mp : @mapper FM) (res vec mat : list Z) (m n : nat) (l : string) (e : @env FM) (h k : Z).
Notation MM := (Z.to_nat (M c)).
Notation gp r j := (at2 0%Z (gd_p mp) r j).
Notation gm r j := (at2 0%Z (gd_m mp) r j).
Notation at_f := (at2 (@f0 FM)).
Notation vv j := (nth j vec 0%Z).
Notation nominal g := (@level FM g (@fsub FM (@LRS FM c) (@HRS FM c)) (@HRS FM c)).

Context (Hw : cfg_wf c) (Hs : shape c mp)
  (Hm : (m <= MM)%nat) (Hn : (n <= colsN c)%nat)
  (Hres : (m <= len res)%nat) (Hvec : (n <= len vec)%nat)
  (Hpar : parasitics c = false) (Hprof : adc_profile c = false)
  (Hinf : a_ty (mp_adc mp) = INF_ADC)
  (Hhrs : @HRS FM c = @f_of_Z FM h) (Hlrs : @LRS FM c = @f_of_Z FM (h + 2 ^ k))
  (Hh : 0 <= h) (Hk : 0 <= k <= 24) (Hh2 : h + 2 ^ k < lim) (Hh3 : Z.of_nat n * 2 ^ k < lim)
  (Hh4 : is_diff (m_mode c) = false -> Z.of_nat n * (h + 2 ^ k) < lim)
  (Hh5 : m_mode c = TNN_IV \/ m_mode c = TNN_V -> 6 * (Z.of_nat n * (h + 2 ^ k)) < lim)
  (Himm : @i_mm FM mp = Some (@fsub FM (@LRS FM c) (@HRS FM c)))
  (Hv : forall j, (j < n)%nat -> vok c (vv j))
  (Hx : is_int (m_mode c) = false)
  (Hc : forall i j, (i < m)%nat -> (j < n)%nat -> cellok c mp i j)
  (Hip : forall i j, (i < m)%nat -> (j < n)%nat -> at_f (@ia_p FM mp) i j = nominal (gp i j))
  (Him : two_arrays (m_mode c) = true -> forall i j, (i < m)%nat -> (j < n)%nat -> at_f (@ia_m FM mp) i j = nominal (gm i j))
  (HSW : kap c <> 0 -> forall i, (i < m)%nat -> Z.abs (nth i (sum_w mp) 0) < lim)
  (HR2 : forall i, (i < m)%nat -> Z.abs (dres c mp vec n i 0) <= Z.of_nat n)
  (HR3 : forall i, (i < m)%nat -> Z.abs (nth i res 0) + 3 * Z.of_nat n < lim).

Definition xgoal : Prop :=
  exists mp', @a_mvm FM c mp res vec mat m n l e = Ok (upto m (fun i x => x + dres c mp vec n i 0) res, mp', e).

Lemma cell01 i j : (i < m)%nat -> (j < n)%nat -> 0 <= gp i j <= 1 /\ 0 <= gm i j <= 1.
Proof. intros H1 H2. specialize (Hc i j H1 H2). unfold cellok in Hc. now rewrite Hx in Hc. Qed.
Lemma row_x i : (i < m)%nat -> (i < rowsN c)%nat.
Proof. intros H. pose proof (wf_ns c Hw Hx). unfold rowsN. nia. Qed.
Lemma dres_lt i : (i < m)%nat -> Z.abs (dres c mp vec n i 0) < lim.
Proof. intros Hi. pose proof (HR2 i Hi) as R2. pose proof (HR3 i Hi) as R3. lia. Qed.
Lemma d_pos : 0 < 2 ^ k. Proof. apply Z.pow_pos_nonneg; lia. Qed.

Lemma v_hrs : val 0 (@HRS FM c) h.
Proof. pose proof d_pos. rewrite Hhrs. apply v_of. lia. Qed.
Lemma v_lrs : val 0 (@LRS FM c) (h + 2 ^ k).
Proof. pose proof d_pos. rewrite Hlrs. apply v_of. lia. Qed.
Lemma v_imm : val 0 (@fsub FM (@LRS FM c) (@HRS FM c)) (2 ^ k).
Proof. pose proof d_pos. eapply v_eq; [apply v_sub; [apply v_lrs|apply v_hrs|lia]|lia]. Qed.
Lemma v_nominal g : 0 <= g <= 1 -> val 0 (nominal g) (h + g * 2 ^ k).
Proof.
  intros Hg. pose proof d_pos. unfold level. assert (g = 0 \/ g = 1) as [-> | ->] by lia;
  (eapply v_eq; [apply v_add; [apply v_mul; [apply v_of; lia|apply v_imm|lia]|apply v_hrs|lia]|lia]).
Qed.
Lemma v_sc j : 0 <= j <= 1 -> exists sc, @inv_imm FM mp (2 ^ j) = Ok sc /\ val (j - k) sc 1.
Proof.
  intros Hj. unfold inv_imm. rewrite Himm. cbn [use bind]. eexists. split; [reflexivity|].
  assert (A : val 0 (@f_of_Z FM (2 ^ j)) (1 * 2 ^ j)) by (assert (j = 0 \/ j = 1) as [-> | ->] by lia; apply v_of; reflexivity).
  apply val_up in A; [|lia]. replace (j - k) with (0 + j - k) by lia.
  apply val_div; [exact A|apply v_imm|lia|lia|lia].
Qed.

(** *** One conversion of all rows *)
Lemma pass term (tv : nat -> nat -> @F FM) (T : nat -> nat -> Z) vp vm (t0 : list (@F FM)) sc j off O : (m <= len t0)%nat ->
  (forall i j, (i < m)%nat -> (j < n)%nat -> term i j = Ok (tv i j) /\ val 0 (tv i j) (T i j)) ->
  (forall i q, (i < m)%nat -> (q <= n)%nat -> Z.abs (sumZ q (T i)) < lim) ->
  0 <= j <= 1 -> val (j - k) sc 1 -> val 0 off O ->
  (forall i, (i < m)%nat -> Z.abs (sumZ n (T i) + O) < lim) ->
  exists t1 t, @currents FM c mp term vp vm m n (fill t0 (@f0 FM)) = Ok t1 /\
    @adc_vec FM c (mp_adc mp) l m t1 sc off e = Ok (t, e) /\ (m <= len t)%nat /\
    forall i, (i < m)%nat -> val (j - k) (nth i t (@f0 FM)) (sumZ n (T i) + O).
Proof.
  intros Ht0 Ht Hb Hj Hsc Hoff Hfin. unfold currents. rewrite Hpar.
  destruct (facc_fill m n term tv t0 Ht0 (fun i j Hi Hj => proj1 (Ht i j Hi Hj))) as (t1 & E1 & L1 & V1).
  exists t1, (upto m (fun _ x => @fmul FM (@fadd FM x off) sc) t1). split; [exact E1|].
  assert (Lm : (m <= len t1)%nat) by (rewrite L1; exact Ht0).
  split; [|split; [now rewrite upto_length|]].
  - unfold adc_vec. replace (len t1 <? m)%nat with false by lia. rewrite Hprof. cbn [bind].
    rewrite (rows_eq m _ (fun _ x => @fmul FM (@fadd FM x off) sc) t1 (@f0 FM) Lm); [reflexivity|].
    intros i b Hi Hl _. rewrite (get_ok b i (@f0 FM)) by lia. cbn [bind]. unfold adc1. rewrite Hinf. cbn [bind].
    now rewrite set_ok by lia.
  - intros i Hi. rewrite nth_upto_lt by lia. rewrite V1 by exact Hi.
    assert (A : val 0 (@fadd FM (fsum n (@f0 FM) (tv i)) off) (sumZ n (T i) + O)).
    { apply v_add; [|exact Hoff|now apply Hfin]. apply v_fsum; [intros q Hq; now apply Ht|intros q Hq; now apply Hb]. }
    rewrite <- (Z.mul_1_r (sumZ n (T i) + O)). replace (j - k) with (0 + (j - k)) by lia.
    apply val_mul; [exact A|exact Hsc|rewrite Z.mul_1_r; now apply Hfin|lia].
Qed.
Lemma scaled j x X : 0 <= j -> val (j - k) x (X * 2 ^ k) -> val 0 x (X * 2 ^ j).
Proof.
  intros Hj H. apply val_up in H; [|lia]. replace (j - k + k) with (0 + j) in H by lia. now apply val_down.
Qed.

(** Adding the rows to the results. *)
Lemma res_final (w : nat -> @F FM) body : (forall i a, (i < m)%nat -> len a = len res ->
     body i a = @res_fadd FM a i (w i)) ->
  (forall i, (i < m)%nat -> val 0 (w i) (dres c mp vec n i 0)) ->
  forN m body res = Ok (upto m (fun i x => x + dres c mp vec n i 0) res).
Proof.
  intros Hb Hval. apply (rows_eq m body (fun i x => x + dres c mp vec n i 0) res 0 Hres).
  intros i a Hi Hl Ha. rewrite Hb by auto. unfold res_fadd. rewrite (get_ok a i 0) by lia. cbn [bind]. rewrite Ha.
  rewrite (v_f2i _ (nth i res 0 + dres c mp vec n i 0)); [|apply v_add; [apply v_of|now apply Hval|]|]; try (pose proof (HR3 i Hi) as R3; pose proof (HR2 i Hi) as R2; lia).
  cbn [bind]. now rewrite set_ok by lia.
Qed.

Lemma dres_lin i (f : nat -> Z) q : kap c = q -> (forall j, (j < n)%nat ->
   f j = cellv c mp i j * vv j + cellb c mp i j + q * cellv c mp i j) ->
  dres c mp vec n i 0 = sumZ n f - q * nth i (sum_w mp) 0.
Proof.
  intros Hq Hf. unfold dres. rewrite Hq.
  rewrite (sumZ_ext n f (fun j => cellv c mp i j * vv j + cellb c mp i j + q * cellv c mp i j)) by auto.
  rewrite (sumZ_add n (fun j => cellv c mp i j * vv j + cellb c mp i j) (fun j => q * cellv c mp i j)).
  rewrite (sumZ_mul_l n q (fun j => cellv c mp i j)). ring.
Qed.

Definition rail (f : Z -> Z) (l0 : list Z) : list Z := upto n (fun j _ => f (nth j vec 0%Z)) l0.
Lemma rail_nth f l0 j : len l0 = colsN c -> (j < n)%nat -> nth j (rail f l0) 0%Z = f (vv j).
Proof. intros Hl Hj. unfold rail. now rewrite nth_upto_lt by lia. Qed.
Lemma rail_len f l0 : len (rail f l0) = len l0.
Proof. apply upto_length. Qed.
Lemma vdp_len : len (vd_p mp) = colsN c. Proof. apply Hs. Qed.
Lemma tmp_len : (m <= len (@tmp FM mp))%nat.
Proof. rewrite (sh_tmp _ _ Hs Hx). exact Hm. Qed.

Lemma fterm1_ok (sw : bool) (u : list Z) i j v : (i < m)%nat -> (j < n)%nat -> len u = colsN c ->
  (sw = true -> two_arrays (m_mode c) = true) -> nth j u 0 = v ->
  @fterm1 FM (if sw then @ia_m FM mp else @ia_p FM mp) u i j = Ok (@fmul FM (nominal (if sw then gm i j else gp i j)) (@f_of_Z FM v)).
Proof.
  intros Hi Hj Hu Hsw <-. pose proof (row_x i Hi). unfold fterm1.
  destruct sw; rewrite (get2_ok (@f0 FM) (rowsN c) (colsN c)) by (try apply Hs; lia); cbn [bind];
    rewrite (get_ok u j 0) by lia; cbn [bind]; [rewrite Him by auto|rewrite Hip by auto]; reflexivity.
Qed.
Lemma v_term1 g v : 0 <= g <= 1 -> 0 <= v <= 1 -> val 0 (@fmul FM (nominal g) (@f_of_Z FM v)) ((h + g * 2 ^ k) * v).
Proof.
  intros Hg Hvv. pose proof d_pos. apply v_mul; [now apply v_nominal|apply v_of; lia|].
  assert (g = 0 \/ g = 1) as [-> | ->] by lia; assert (v = 0 \/ v = 1) as [-> | ->] by lia; lia.
Qed.
Lemma fterm_ok (sw : bool) (u : list Z) i j v : (i < m)%nat -> (j < n)%nat -> len u = colsN c ->
  two_arrays (m_mode c) = true -> nth j u 0 = v ->
  @fterm FM (if sw then @ia_m FM mp else @ia_p FM mp) (if sw then @ia_p FM mp else @ia_m FM mp) u i j =
  Ok (@fmul FM (@fsub FM (nominal (if sw then gm i j else gp i j)) (nominal (if sw then gp i j else gm i j))) (@f_of_Z FM v)).
Proof.
  intros Hi Hj Hu Hsw <-. pose proof (row_x i Hi). unfold fterm.
  destruct sw; rewrite (get2_ok (@f0 FM) (rowsN c) (colsN c)) by (try apply Hs; lia); cbn [bind];
    rewrite (get2_ok (@f0 FM) (rowsN c) (colsN c)) by (try apply Hs; lia); cbn [bind];
    rewrite (get_ok u j 0) by lia; cbn [bind]; rewrite Him, Hip by auto; reflexivity.
Qed.
Lemma v_term g g' v : 0 <= g <= 1 -> 0 <= g' <= 1 -> 0 <= v <= 1 ->
  val 0 (@fmul FM (@fsub FM (nominal g) (nominal g')) (@f_of_Z FM v)) ((g - g') * v * 2 ^ k).
Proof.
  intros Hg Hg' Hvv. pose proof d_pos.
  eapply v_eq; [apply v_mul; [apply v_sub; [now apply v_nominal|now apply v_nominal|]|apply v_of; lia|]|ring];
  assert (g = 0 \/ g = 1) as [-> | ->] by lia; assert (g' = 0 \/ g' = 1) as [-> | ->] by lia; assert (v = 0 \/ v = 1) as [-> | ->] by lia; lia.
Qed.

(** *** BNN_I and BNN_II *)
Lemma x_bnn_i : m_mode c = BNN_I -> xgoal.
Proof.
  intros Hmode. pose proof d_pos as Hd.
  assert (Hvb : forall j, (j < n)%nat -> bin (vv j)).
  { intros j Hj. specialize (Hv j Hj). unfold vok in Hv. now rewrite Hmode in Hv. }
  assert (H2 : two_arrays (m_mode c) = true) by now rewrite Hmode.
  unfold xgoal, a_mvm. rewrite (sh_mode _ _ Hs), Hmode. unfold bnn_i_a. pose proof vdp_len as Hvl.
  rewrite (load_ok vec n _ posp) by (try lia; intros j Hj; destruct (Hvb j Hj) as [-> | ->]; reflexivity).
  change (upto n _ (vd_p mp)) with (rail posp (vd_p mp)). set (u := rail _ _). cbn [bind].
  assert (Lu : len u = colsN c) by (unfold u; now rewrite rail_len).
  assert (Nu : forall j, (j < n)%nat -> nth j u 0%Z = posp (vv j)) by (intros; unfold u; now apply rail_nth).
  destruct (v_sc 1 ltac:(lia)) as (sc & Esc & Vsc). change (2 ^ 1) with 2 in Esc.
  set (S i := fun j => (gp i j - gm i j) * posp (vv j)).
  assert (BT : forall i j, (i < m)%nat -> (j < n)%nat -> Z.abs (S i j * 2 ^ k) <= 2 ^ k).
  { intros i j Hi Hj. pose proof (cell01 i j Hi Hj). unfold S.
    destruct (Hvb j Hj) as [-> | ->]; cbn [posp Z.max Z.compare]; nia. }
  destruct (pass (@fterm FM (@ia_p FM mp) (@ia_m FM mp) u) _ (fun i j => S i j * 2 ^ k) u [] (@tmp FM mp) sc 1 (@f0 FM) 0 tmp_len
    (fun i j Hi Hj => conj (fterm_ok false u i j _ Hi Hj Lu H2 (Nu j Hj))
      (v_term (gp i j) (gm i j) (posp (vv j)) (proj1 (cell01 i j Hi Hj)) (proj2 (cell01 i j Hi Hj))
         ltac:(destruct (Hvb j Hj) as [-> | ->]; cbn; lia))))
    as (t1 & t & E1 & E2 & L & V); auto; try lia.
  { intros i q Hi Hq. apply (sumZ_part n q _ (2 ^ k)); auto; lia. }
  { apply v_of. reflexivity. }
  { intros i Hi. rewrite Z.add_0_r. apply (sumZ_part n n _ (2 ^ k)); auto; lia. }
  rewrite E1. cbn [bind]. rewrite Esc. cbn [bind]. rewrite E2. cbn [bind].
  rewrite (res_final (fun i => @fsub FM (nth i t (@f0 FM)) (@f_of_Z FM (nth i (sum_w mp) 0)))).
  - cbn [bind]. eauto.
  - intros i a Hi Ha. rewrite (get_ok t i (@f0 FM)) by lia. cbn [bind].
    rewrite (get_ok (sum_w mp) i 0%Z) by (rewrite (sh_sw _ _ Hs); lia). reflexivity.
  - intros i Hi.
    assert (ED : dres c mp vec n i 0 = sumZ n (S i) * 2 ^ 1 - nth i (sum_w mp) 0).
    { rewrite (dres_lin i (fun j => 2 * S i j) 1).
      + rewrite sumZ_mul_l. lia.
      + unfold kap. now rewrite Hmode.
      + intros j Hj. unfold cellv, cellb, S. rewrite Hmode. destruct (Hvb j Hj) as [-> | ->]; cbn [posp Z.max Z.compare]; ring. }
    rewrite ED. apply v_sub; [|apply v_of, HSW; [unfold kap; now rewrite Hmode|exact Hi]|rewrite <- ED; now apply dres_lt].
    apply scaled; [lia|]. specialize (V i Hi). now rewrite Z.add_0_r, sumZ_mul_r in V.
Qed.
Lemma x_bnn_ii : m_mode c = BNN_II -> xgoal.
Proof.
  intros Hmode. pose proof d_pos as Hd.
  assert (Hvb : forall j, (j < n)%nat -> bin (vv j)).
  { intros j Hj. specialize (Hv j Hj). unfold vok in Hv. now rewrite Hmode in Hv. }
  assert (H2 : two_arrays (m_mode c) = true) by now rewrite Hmode.
  unfold xgoal, a_mvm. rewrite (sh_mode _ _ Hs), Hmode. unfold bnn_ii_a. pose proof vdp_len as Hvl.
  rewrite (load_ok vec n _ negp) by (try lia; intros j Hj; destruct (Hvb j Hj) as [-> | ->]; reflexivity).
  change (upto n _ (vd_p mp)) with (rail negp (vd_p mp)). set (u := rail _ _). cbn [bind].
  assert (Lu : len u = colsN c) by (unfold u; now rewrite rail_len).
  assert (Nu : forall j, (j < n)%nat -> nth j u 0%Z = negp (vv j)) by (intros; unfold u; now apply rail_nth).
  destruct (v_sc 1 ltac:(lia)) as (sc & Esc & Vsc). change (2 ^ 1) with 2 in Esc.
  set (S i := fun j => (gm i j - gp i j) * negp (vv j)).
  assert (BT : forall i j, (i < m)%nat -> (j < n)%nat -> Z.abs (S i j * 2 ^ k) <= 2 ^ k).
  { intros i j Hi Hj. pose proof (cell01 i j Hi Hj). unfold S.
    destruct (Hvb j Hj) as [-> | ->]; cbn [negp Z.max Z.compare Z.opp]; nia. }
  destruct (pass (@fterm FM (@ia_m FM mp) (@ia_p FM mp) u) _ (fun i j => S i j * 2 ^ k) u [] (@tmp FM mp) sc 1 (@f0 FM) 0 tmp_len
    (fun i j Hi Hj => conj (fterm_ok true u i j _ Hi Hj Lu H2 (Nu j Hj))
      (v_term (gm i j) (gp i j) (negp (vv j)) (proj2 (cell01 i j Hi Hj)) (proj1 (cell01 i j Hi Hj))
         ltac:(destruct (Hvb j Hj) as [-> | ->]; cbn; lia))))
    as (t1 & t & E1 & E2 & L & V); auto; try lia.
  { intros i q Hi Hq. apply (sumZ_part n q _ (2 ^ k)); auto; lia. }
  { apply v_of. reflexivity. }
  { intros i Hi. rewrite Z.add_0_r. apply (sumZ_part n n _ (2 ^ k)); auto; lia. }
  rewrite E1. cbn [bind]. rewrite Esc. cbn [bind]. rewrite E2. cbn [bind].
  rewrite (res_final (fun i => @fadd FM (nth i t (@f0 FM)) (@f_of_Z FM (nth i (sum_w mp) 0)))).
  - cbn [bind]. eauto.
  - intros i a Hi Ha. rewrite (get_ok t i (@f0 FM)) by lia. cbn [bind].
    rewrite (get_ok (sum_w mp) i 0%Z) by (rewrite (sh_sw _ _ Hs); lia). reflexivity.
  - intros i Hi.
    assert (ED : dres c mp vec n i 0 = sumZ n (S i) * 2 ^ 1 + nth i (sum_w mp) 0).
    { rewrite (dres_lin i (fun j => 2 * S i j) (-1)).
      + rewrite sumZ_mul_l. lia.
      + unfold kap. now rewrite Hmode.
      + intros j Hj. unfold cellv, cellb, S. rewrite Hmode. destruct (Hvb j Hj) as [-> | ->]; cbn [negp Z.max Z.compare Z.opp]; ring. }
    rewrite ED. apply v_add; [|apply v_of, HSW; [unfold kap; now rewrite Hmode|exact Hi]|rewrite <- ED; now apply dres_lt].
    apply scaled; [lia|]. specialize (V i Hi). now rewrite Z.add_0_r, sumZ_mul_r in V.
Qed.

(** *** Two rails *)
Lemma bin_rails v : bin v -> 0 <= posp v /\ 0 <= negp v /\ posp v + negp v = 1 /\ posp v - negp v = v.
Proof. intros [-> | ->]; cbn; lia. Qed.
Lemma ter_rails v : ter v -> 0 <= posp v /\ 0 <= negp v /\ posp v + negp v <= 1 /\ posp v - negp v = v.
Proof. intros [-> | [-> | ->]]; cbn; lia. Qed.

Lemma v_quad g g' p q : 0 <= g <= 1 -> 0 <= g' <= 1 -> 0 <= p -> 0 <= q -> p + q <= 1 ->
  val 0 (@fsub FM (@fsub FM (@fadd FM (@fmul FM (nominal g) (@f_of_Z FM p)) (@fmul FM (nominal g') (@f_of_Z FM q)))
     (@fmul FM (nominal g') (@f_of_Z FM p))) (@fmul FM (nominal g) (@f_of_Z FM q))) ((g - g') * (p - q) * 2 ^ k).
Proof.
  intros Hg Hg' Hp Hq Hpq. pose proof d_pos.
  eapply v_eq; [apply v_sub; [apply v_sub; [apply v_add|..]|..]; try (apply v_term1; lia)|ring];
  assert (g = 0 \/ g = 1) as [-> | ->] by lia; assert (g' = 0 \/ g' = 1) as [-> | ->] by lia;
  assert (p = 0 /\ q = 0 \/ p = 0 /\ q = 1 \/ p = 1 /\ q = 0) as [[-> ->] | [[-> ->] | [-> ->]]] by lia; lia.
Qed.

Lemma x_quad (tern : bool) : m_mode c = (if tern then TNN_I else BNN_VI) -> xgoal.
Proof.
  intros Hmode. pose proof d_pos as Hd.
  assert (Hvb : forall j, (j < n)%nat -> (if tern then ter else bin) (vv j)).
  { intros j Hj. specialize (Hv j Hj). unfold vok in Hv. destruct tern; now rewrite Hmode in Hv. }
  assert (Hvt : forall j, (j < n)%nat -> ter (vv j)) by (intros j Hj; specialize (Hvb j Hj); destruct tern; auto using bin_ter).
  assert (H2 : two_arrays (m_mode c) = true) by (destruct tern; now rewrite Hmode).
  assert (Lvm : len (vd_m mp) = colsN c) by (apply Hs; destruct tern; now rewrite Hmode).
  assert (EA : @a_mvm FM c mp res vec mat m n l e = @quad_a FM tern c mp res vec mat m n l e).
  { unfold a_mvm. rewrite (sh_mode _ _ Hs), Hmode. destruct tern; reflexivity. }
  unfold xgoal. rewrite EA. unfold quad_a. pose proof vdp_len as Hvl.
  rewrite two_rail_ok by (auto; lia). cbn [bind].
  change (upto n _ (vd_p mp)) with (rail posp (vd_p mp)). set (up := rail posp _).
  change (upto n _ (vd_m mp)) with (rail negp (vd_m mp)). set (um := rail negp _).
  assert (Lp : len up = colsN c) by (unfold up; now rewrite rail_len).
  assert (Lm : len um = colsN c) by (unfold um; now rewrite rail_len).
  assert (Np : forall j, (j < n)%nat -> nth j up 0%Z = posp (vv j)) by (intros; unfold up; now apply rail_nth).
  assert (Nm : forall j, (j < n)%nat -> nth j um 0%Z = negp (vv j)) by (intros; unfold um; now apply rail_nth).
  destruct (v_sc 0 ltac:(lia)) as (sc & Esc & Vsc). change (2 ^ 0) with 1 in Esc.
  set (S i := fun j => (gp i j - gm i j) * (posp (vv j) - negp (vv j))).
  assert (BT : forall i j, (i < m)%nat -> (j < n)%nat -> Z.abs (S i j * 2 ^ k) <= 2 ^ k).
  { intros i j Hi Hj. pose proof (cell01 i j Hi Hj). unfold S.
    destruct (Hvt j Hj) as [-> | [-> | ->]]; cbn [posp negp Z.max Z.compare Z.opp]; nia. }
  destruct (pass (@fquad FM (@ia_p FM mp) (@ia_m FM mp) up um) _ (fun i j => S i j * 2 ^ k) up um (@tmp FM mp) sc 0 (@f0 FM) 0 tmp_len
    (fun i j Hi Hj => conj
      (eq_trans (f_equal (fun z => a <- z ;; b <- @fterm1 FM (@ia_m FM mp) um i j ;; x <- @fterm1 FM (@ia_m FM mp) up i j ;;
           y <- @fterm1 FM (@ia_p FM mp) um i j ;; Ok (@fsub FM (@fsub FM (@fadd FM a b) x) y)) (fterm1_ok false up i j _ Hi Hj Lp ltac:(discriminate) (Np j Hj)))
        (eq_trans (f_equal (fun z => b <- z ;; x <- @fterm1 FM (@ia_m FM mp) up i j ;; y <- @fterm1 FM (@ia_p FM mp) um i j ;;
           Ok (@fsub FM (@fsub FM (@fadd FM _ b) x) y)) (fterm1_ok true um i j _ Hi Hj Lm (fun _ => H2) (Nm j Hj)))
        (eq_trans (f_equal (fun z => x <- z ;; y <- @fterm1 FM (@ia_p FM mp) um i j ;;
           Ok (@fsub FM (@fsub FM _ x) y)) (fterm1_ok true up i j _ Hi Hj Lp (fun _ => H2) (Np j Hj)))
        (f_equal (fun z => y <- z ;; Ok (@fsub FM _ y)) (fterm1_ok false um i j _ Hi Hj Lm ltac:(discriminate) (Nm j Hj))))))
      (v_quad (gp i j) (gm i j) (posp (vv j)) (negp (vv j)) (proj1 (cell01 i j Hi Hj)) (proj2 (cell01 i j Hi Hj))
         (proj1 (ter_rails _ (Hvt j Hj))) (proj1 (proj2 (ter_rails _ (Hvt j Hj)))) (proj1 (proj2 (proj2 (ter_rails _ (Hvt j Hj))))))))
    as (t1 & t & E1 & E2 & L & V); auto; try lia.
  { intros i q Hi Hq. apply (sumZ_part n q _ (2 ^ k)); auto; lia. }
  { apply v_of. reflexivity. }
  { intros i Hi. rewrite Z.add_0_r. apply (sumZ_part n n _ (2 ^ k)); auto; lia. }
  rewrite E1. cbn [bind]. rewrite Esc. cbn [bind]. rewrite E2. cbn [bind].
  rewrite (res_final (fun i => nth i t (@f0 FM))).
  - cbn [bind]. eauto.
  - intros i a Hi Ha. rewrite (get_ok t i (@f0 FM)) by lia. reflexivity.
  - intros i Hi.
    assert (ED : dres c mp vec n i 0 = sumZ n (S i) * 2 ^ 0).
    { rewrite (dres_lin i (S i) 0).
      + lia.
      + unfold kap. destruct tern; now rewrite Hmode.
      + intros j Hj. unfold cellv, cellb, S. rewrite pos_neg. destruct tern; rewrite Hmode; ring. }
    rewrite ED. apply scaled; [lia|]. specialize (V i Hi). now rewrite Z.add_0_r, sumZ_mul_r in V.
Qed.

Lemma v_off O : Z.abs O <= Z.of_nat n -> Z.of_nat n * (h + 2 ^ k) < lim -> val 0 (@fmul FM (@f_of_Z FM O) (@HRS FM c)) (O * h).
Proof.
  intros HO Hb. pose proof d_pos. apply v_mul; [apply v_of; nia|apply v_hrs|]. rewrite Z.abs_mul, (Z.abs_eq h) by lia. nia.
Qed.

Lemma v_both g g' p q : 0 <= g <= 1 -> 0 <= g' <= 1 -> 0 <= p -> 0 <= q -> p + q = 1 ->
  val 0 (@fadd FM (@fmul FM (nominal g) (@f_of_Z FM p)) (@fmul FM (nominal g') (@f_of_Z FM q))) (h + (g * p + g' * q) * 2 ^ k).
Proof.
  intros Hg Hg' Hp Hq Hpq. pose proof d_pos.
  eapply v_eq; [apply v_add; try (apply v_term1; lia)|];
  assert (g = 0 \/ g = 1) as [-> | ->] by lia; assert (g' = 0 \/ g' = 1) as [-> | ->] by lia;
  assert (p = 0 /\ q = 1 \/ p = 1 /\ q = 0) as [[-> ->] | [-> ->]] by lia; lia.
Qed.

Lemma x_bnn_v : m_mode c = BNN_V -> xgoal.
Proof.
  intros Hmode. pose proof d_pos as Hd.
  assert (Hvb : forall j, (j < n)%nat -> bin (vv j)).
  { intros j Hj. specialize (Hv j Hj). unfold vok in Hv. now rewrite Hmode in Hv. }
  assert (H2 : two_arrays (m_mode c) = true) by now rewrite Hmode.
  assert (H5 : Z.of_nat n * (h + 2 ^ k) < lim) by (apply Hh4; now rewrite Hmode).
  assert (Lvm : len (vd_m mp) = colsN c) by (apply Hs; now rewrite Hmode).
  unfold xgoal, a_mvm. rewrite (sh_mode _ _ Hs), Hmode. unfold bnn_v_a. pose proof vdp_len as Hvl.
  rewrite two_rail_ok by (auto; lia). cbn [bind].
  change (upto n _ (vd_p mp)) with (rail posp (vd_p mp)). set (up := rail posp _).
  change (upto n _ (vd_m mp)) with (rail negp (vd_m mp)). set (um := rail negp _).
  assert (Lp : len up = colsN c) by (unfold up; now rewrite rail_len).
  assert (Lm : len um = colsN c) by (unfold um; now rewrite rail_len).
  assert (Np : forall j, (j < n)%nat -> nth j up 0%Z = posp (vv j)) by (intros; unfold up; now apply rail_nth).
  assert (Nm : forall j, (j < n)%nat -> nth j um 0%Z = negp (vv j)) by (intros; unfold um; now apply rail_nth).
  destruct (v_sc 1 ltac:(lia)) as (sc & Esc & Vsc). change (2 ^ 1) with 2 in Esc.
  set (S i := fun j => gp i j * posp (vv j) + gm i j * negp (vv j)).
  assert (S01 : forall i j, (i < m)%nat -> (j < n)%nat -> 0 <= S i j <= 1).
  { intros i j Hi Hj. pose proof (cell01 i j Hi Hj). unfold S.
    destruct (Hvb j Hj) as [-> | ->]; cbn [posp negp Z.max Z.compare Z.opp]; nia. }
  assert (BT : forall i j, (i < m)%nat -> (j < n)%nat -> Z.abs (h + S i j * 2 ^ k) <= h + 2 ^ k).
  { intros i j Hi Hj. pose proof (S01 i j Hi Hj). nia. }
  assert (ES : forall i, sumZ n (fun j => h + S i j * 2 ^ k) + - Z.of_nat n * h = sumZ n (S i) * 2 ^ k).
  { intros i. rewrite (sumZ_add n (fun _ => h) (fun j => S i j * 2 ^ k)), sumZ_const, sumZ_mul_r. ring. }
  assert (BS : forall i, (i < m)%nat -> Z.abs (sumZ n (S i)) <= Z.of_nat n * 1).
  { intros i Hi. apply sumZ_bound. intros j Hj. specialize (S01 i j Hi Hj). lia. }
  destruct (pass (fun i j => x <- @fterm1 FM (@ia_p FM mp) up i j ;; y <- @fterm1 FM (@ia_m FM mp) um i j ;; Ok (@fadd FM x y)) _
    (fun i j => h + S i j * 2 ^ k) up um (@tmp FM mp) sc 1 (@fmul FM (@f_of_Z FM (- Z.of_nat n)) (@HRS FM c)) (- Z.of_nat n * h) tmp_len
    (fun i j Hi Hj => conj
      (eq_trans (f_equal (fun z => x <- z ;; y <- @fterm1 FM (@ia_m FM mp) um i j ;; Ok (@fadd FM x y))
           (fterm1_ok false up i j _ Hi Hj Lp ltac:(discriminate) (Np j Hj)))
        (f_equal (fun z => y <- z ;; Ok (@fadd FM _ y)) (fterm1_ok true um i j _ Hi Hj Lm (fun _ => H2) (Nm j Hj))))
      (v_both (gp i j) (gm i j) (posp (vv j)) (negp (vv j)) (proj1 (cell01 i j Hi Hj)) (proj2 (cell01 i j Hi Hj))
         (proj1 (bin_rails _ (Hvb j Hj))) (proj1 (proj2 (bin_rails _ (Hvb j Hj)))) (proj1 (proj2 (proj2 (bin_rails _ (Hvb j Hj))))))))
    as (t1 & t & E1 & E2 & L & V); auto; try lia.
  { intros i q Hi Hq. apply (sumZ_part n q _ (h + 2 ^ k)); auto; lia. }
  { apply v_off; [lia|exact H5]. }
  { intros i Hi. rewrite ES, Z.abs_mul, (Z.abs_eq (2 ^ k)) by lia. specialize (BS i Hi). nia. }
  rewrite E1. cbn [bind]. rewrite Esc. cbn [bind]. rewrite E2. cbn [bind].
  rewrite (res_final (fun i => @fsub FM (nth i t (@f0 FM)) (@f_of_Z FM (Z.of_nat n)))).
  - cbn [bind]. eauto.
  - intros i a Hi Ha. rewrite (get_ok t i (@f0 FM)) by lia. reflexivity.
  - intros i Hi.
    assert (ED : dres c mp vec n i 0 = sumZ n (S i) * 2 ^ 1 - Z.of_nat n).
    { rewrite (dres_lin i (fun j => 2 * S i j - 1) 0).
      + rewrite sumZ_sub, sumZ_mul_l, sumZ_const. lia.
      + unfold kap. now rewrite Hmode.
      + intros j Hj. unfold cellv, cellb, S. rewrite Hmode.
        destruct (Hvb j Hj) as [-> | ->]; cbn [posp negp Z.max Z.compare Z.opp]; ring. }
    rewrite ED. apply v_sub; [|apply v_of; nia|rewrite <- ED; now apply dres_lt].
    apply scaled; [lia|]. specialize (V i Hi). now rewrite ES in V.
Qed.

Lemma x_bnn_iii_iv (inv : bool) : m_mode c = (if inv then BNN_IV else BNN_III) -> xgoal.
Proof.
  intros Hmode. pose proof d_pos as Hd.
  assert (Hvb : forall j, (j < n)%nat -> bin (vv j)).
  { intros j Hj. specialize (Hv j Hj). unfold vok in Hv. destruct inv; now rewrite Hmode in Hv. }
  assert (H5 : Z.of_nat n * (h + 2 ^ k) < lim) by (apply Hh4; destruct inv; now rewrite Hmode).
  assert (Hnl : Z.of_nat n < lim) by nia.
  assert (Lvm : len (vd_m mp) = colsN c) by (apply Hs; destruct inv; now rewrite Hmode).
  destruct (sh_tpm _ _ Hs) as (Ltp & Ltm); [destruct inv; auto|].
  assert (EA : @a_mvm FM c mp res vec mat m n l e = @bnn_iii_iv_a FM inv c mp res vec mat m n l e).
  { unfold a_mvm. rewrite (sh_mode _ _ Hs), Hmode. destruct inv; reflexivity. }
  unfold xgoal. rewrite EA. unfold bnn_iii_iv_a. pose proof vdp_len as Hvl.
  rewrite two_rail_sum_ok by (auto; unfold int_max in *; lia). cbn [bind].
  change (upto n _ (vd_p mp)) with (rail posp (vd_p mp)). set (up := rail posp _).
  change (upto n _ (vd_m mp)) with (rail negp (vd_m mp)). set (um := rail negp _).
  assert (Lp : len up = colsN c) by (unfold up; now rewrite rail_len).
  assert (Lm : len um = colsN c) by (unfold um; now rewrite rail_len).
  assert (Np : forall j, (j < n)%nat -> nth j up 0%Z = posp (vv j)) by (intros; unfold up; now apply rail_nth).
  assert (Nm : forall j, (j < n)%nat -> nth j um 0%Z = negp (vv j)) by (intros; unfold um; now apply rail_nth).
  set (sm := sumZ n (fun j => vv j)).
  set (np := sumZ n (fun j => posp (vv j))). set (nm := sumZ n (fun j => negp (vv j))).
  assert (Hsm : Z.abs sm <= Z.of_nat n * 1).
  { apply sumZ_bound. intros j Hj. destruct (Hvb j Hj) as [-> | ->]; lia. }
  assert (Esm : sm = np - nm).
  { unfold sm, np, nm. rewrite <- sumZ_sub. apply sumZ_ext. intros j Hj. symmetry. apply pos_neg. }
  assert (En : np + nm = Z.of_nat n).
  { unfold np, nm. rewrite <- sumZ_add. rewrite (sumZ_ext n _ (fun _ => 1%Z)); [rewrite sumZ_const; lia|].
    intros j Hj. now apply bin_rails, Hvb. }
  assert (Bnp : 0 <= np) by (apply sumZ_nonneg; intros j Hj; now apply bin_rails, Hvb).
  assert (Bnm : 0 <= nm) by (apply sumZ_nonneg; intros j Hj; now apply bin_rails, Hvb).
  destruct (v_sc 1 ltac:(lia)) as (sc & Esc & Vsc). change (2 ^ 1) with 2 in Esc.
  set (G (p : bool) i := sumZ n (fun j => gp i j * (if p then posp (vv j) else negp (vv j)))).
  set (T (p : bool) i := fun j => (h + gp i j * 2 ^ k) * (if p then posp (vv j) else negp (vv j))).
  assert (ET : forall p i, sumZ n (T p i) = (if p then np else nm) * h + G p i * 2 ^ k).
  { intros p i. unfold T, G, np, nm. rewrite <- sumZ_mul_r.
    destruct p; rewrite <- sumZ_mul_r, <- sumZ_add; apply sumZ_ext; intros; ring. }
  assert (BG : forall p i, (i < m)%nat -> 0 <= G p i <= (if p then np else nm)).
  { intros p i Hi. unfold G, np, nm.
    split; [apply sumZ_nonneg|destruct p; apply sumZ_le]; intros j Hj; pose proof (cell01 i j Hi Hj);
      pose proof (bin_rails _ (Hvb j Hj)); [destruct p; nia|nia|nia]. }
  assert (BT : forall p i j, (i < m)%nat -> (j < n)%nat -> Z.abs (T p i j) <= h + 2 ^ k).
  { intros p i j Hi Hj. pose proof (cell01 i j Hi Hj) as [[] _]. pose proof (bin_rails _ (Hvb j Hj)) as (R1 & R2 & R3 & _). unfold T.
    assert (0 <= gp i j * 2 ^ k <= 2 ^ k) by nia. destruct p; rewrite Z.abs_eq; nia. }
  assert (PT : forall (p : bool) i q, (i < m)%nat -> (q <= n)%nat -> Z.abs (sumZ q (T p i)) < lim).
  { intros p i q Hi Hq. apply (sumZ_part n q _ (h + 2 ^ k)); auto; lia. }
  assert (VT : forall (p : bool) i j, (i < m)%nat -> (j < n)%nat ->
    val 0 (@fmul FM (nominal (gp i j)) (@f_of_Z FM (if p then posp (vv j) else negp (vv j)))) (T p i j)).
  { intros p i j Hi Hj. apply v_term1; [now apply cell01|]. pose proof (bin_rails _ (Hvb j Hj)). destruct p; lia. }
  destruct (pass (@fterm1 FM (@ia_p FM mp) up) _ (T true) up [] (@tmp_p FM mp) sc 1 (@fmul FM (@f_of_Z FM (- sm)) (@HRS FM c)) (- sm * h)
    ltac:(rewrite Ltp; exact Hm)
    (fun i j Hi Hj => conj (fterm1_ok false up i j _ Hi Hj Lp ltac:(discriminate) (Np j Hj)) (VT true i j Hi Hj)))
    as (t1 & tp & E1 & E2 & L1 & V1); auto; try lia.
  { apply v_off; [lia|exact H5]. }
  { intros i Hi. rewrite ET, Esm. pose proof (BG true i Hi) as B. cbn in B. rewrite Z.abs_eq; nia. }
  destruct (pass (@fterm1 FM (@ia_p FM mp) um) _ (T false) um [] (@tmp_m FM mp) sc 1 (@f0 FM) 0
    ltac:(rewrite Ltm; exact Hm)
    (fun i j Hi Hj => conj (fterm1_ok false um i j _ Hi Hj Lm ltac:(discriminate) (Nm j Hj)) (VT false i j Hi Hj)))
    as (t2 & tm & E3 & E4 & L2 & V2); auto; try lia.
  { apply v_of. reflexivity. }
  { intros i Hi. rewrite Z.add_0_r. auto. }
  rewrite E1. cbn [bind]. rewrite E3. cbn [bind]. rewrite Esc. cbn [bind].
  rewrite neg32_ok by (unfold int_min, int_max in *; lia). cbn [bind].
  rewrite E2. cbn [bind]. rewrite E4. cbn [bind].
  rewrite (res_final (fun i => if inv then @fadd FM (@fsub FM (nth i tm (@f0 FM)) (nth i tp (@f0 FM))) (@f_of_Z FM sm)
     else @fsub FM (@fsub FM (nth i tp (@f0 FM)) (nth i tm (@f0 FM))) (@f_of_Z FM sm))).
  - cbn [bind]. eauto.
  - intros i a Hi Ha. rewrite (get_ok tp i (@f0 FM)) by lia. cbn [bind].
    rewrite (get_ok tm i (@f0 FM)) by lia. destruct inv; reflexivity.
  - intros i Hi. specialize (V1 i Hi). specialize (V2 i Hi). rewrite ET in V1, V2. cbv iota in V1, V2.
    pose proof (BG true i Hi) as B1. pose proof (BG false i Hi) as B2. cbv iota in B1, B2.
    assert (ED : dres c mp vec n i 0 = if inv then (G false i - G true i) * 2 ^ 1 + sm else (G true i - G false i) * 2 ^ 1 - sm).
    { rewrite (dres_lin i (fun j => if inv then 2 * (gp i j * negp (vv j) - gp i j * posp (vv j)) + vv j
         else 2 * (gp i j * posp (vv j) - gp i j * negp (vv j)) - vv j) 0).
      - rewrite Z.mul_0_l, Z.sub_0_r. unfold G, sm. destruct inv.
        + rewrite sumZ_add, sumZ_mul_l, sumZ_sub. ring.
        + rewrite sumZ_sub, sumZ_mul_l, sumZ_sub. ring.
      - unfold kap. destruct inv; now rewrite Hmode.
      - intros j Hj. unfold cellv, cellb.
        destruct inv; rewrite Hmode; destruct (Hvb j Hj) as [-> | ->]; cbn [posp negp Z.max Z.compare Z.opp]; ring. }
    pose proof (dres_lt i Hi) as HB. rewrite ED in *.
    assert (EX : np * h + G true i * 2 ^ k + - sm * h = nm * h + G true i * 2 ^ k) by (rewrite Esm; ring). rewrite EX in V1.
    rewrite Z.add_0_r in V2.
    assert (BD : Z.abs ((G true i - G false i) * 2 ^ k) < lim) by (rewrite Z.abs_mul, (Z.abs_eq (2 ^ k)) by lia; nia).
    destruct inv.
    + apply v_add; [|apply v_of; lia|exact HB]. apply scaled; [lia|].
      replace ((G false i - G true i) * 2 ^ k) with (nm * h + G false i * 2 ^ k - (nm * h + G true i * 2 ^ k)) by ring.
      apply val_sub; auto; lia.
    + apply v_sub; [|apply v_of; lia|exact HB]. apply scaled; [lia|].
      replace ((G true i - G false i) * 2 ^ k) with (nm * h + G true i * 2 ^ k - (nm * h + G false i * 2 ^ k)) by ring.
      apply val_sub; auto; lia.
Qed.

(** *** TNN_II and TNN_III *)
Notation SS u i := (sumZ n (fun j => (gp i j - gm i j) * nth j u 0)).
Lemma sum_cell i (u : list Z) : (i < m)%nat -> (forall j, (j < n)%nat -> 0 <= nth j u 0 <= 1) -> Z.abs (SS u i) <= Z.of_nat n.
Proof.
  intros Hi Hu. rewrite <- (Z.mul_1_r (Z.of_nat n)). apply sumZ_bound. intros j Hj.
  pose proof (cell01 i j Hi Hj). specialize (Hu j Hj).
  assert (nth j u 0 = 0 \/ nth j u 0 = 1)%Z as [-> | ->] by lia; lia.
Qed.
Lemma slice_ok q (sub : bool) (u : list Z) (t0 : list (@F FM)) (res0 : list Z) :
  two_arrays (m_mode c) = true -> 0 <= q <= 1 ->
  len u = colsN c -> (forall j, (j < n)%nat -> 0 <= nth j u 0 <= 1) ->
  (m <= len t0)%nat -> (m <= len res0)%nat ->
  (forall i, (i < m)%nat -> Z.abs (nth i res0 0) + 2 ^ q * Z.of_nat n < lim) ->
  exists t, @tnn_slice FM c mp u m n l (2 ^ q) sub t0 res0 e =
    Ok (upto m (fun i x => x + (if sub then -1 else 1) * (SS u i * 2 ^ q)) res0, t, e) /\ (m <= len t)%nat.
Proof.
  intros H2 Hq Lu Hu Lt Lr Hb. pose proof d_pos as Hd. unfold tnn_slice.
  destruct (v_sc q Hq) as (sc & Esc & Vsc).
  assert (BT : forall i j, (i < m)%nat -> (j < n)%nat -> Z.abs ((gp i j - gm i j) * nth j u 0 * 2 ^ k) <= 2 ^ k).
  { intros i j Hi Hj. pose proof (cell01 i j Hi Hj). specialize (Hu j Hj).
    assert (nth j u 0 = 0 \/ nth j u 0 = 1)%Z as [-> | ->] by lia; nia. }
  destruct (pass (@fterm FM (@ia_p FM mp) (@ia_m FM mp) u) _ (fun i j => (gp i j - gm i j) * nth j u 0 * 2 ^ k) u [] t0 sc q (@f0 FM) 0 Lt
    (fun i j Hi Hj => conj (fterm_ok false u i j _ Hi Hj Lu H2 eq_refl)
      (v_term (gp i j) (gm i j) (nth j u 0) (proj1 (cell01 i j Hi Hj)) (proj2 (cell01 i j Hi Hj)) (Hu j Hj))))
    as (t1 & t & E1 & E2 & L & V); auto; try lia.
  { intros i r Hi Hr. apply (sumZ_part n r _ (2 ^ k)); auto; lia. }
  { apply v_of. reflexivity. }
  { intros i Hi. rewrite Z.add_0_r. apply (sumZ_part n n _ (2 ^ k)); auto; lia. }
  rewrite E1. cbn [bind]. rewrite Esc. cbn [bind]. rewrite E2. cbn [bind].
  rewrite (rows_eq m _ (fun i x => x + (if sub then -1 else 1) * (SS u i * 2 ^ q)) res0 0 Lr).
  - cbn [bind]. eauto.
  - intros i a Hi Ha Ea. rewrite (get_ok t i (@f0 FM)) by lia. cbn [bind].
    pose proof (sum_cell i u Hi Hu) as BS. specialize (Hb i Hi). specialize (V i Hi).
    rewrite Z.add_0_r, sumZ_mul_r in V. apply scaled in V; [|lia].
    assert (B2 : Z.abs (SS u i * 2 ^ q) <= 2 ^ q * Z.of_nat n).
    { pose proof (Z.pow_pos_nonneg 2 q ltac:(lia) ltac:(lia)). rewrite Z.abs_mul, (Z.abs_eq (2 ^ q)) by lia. nia. }
    destruct sub; unfold res_fadd, res_fsub; rewrite (get_ok a i 0) by lia; cbn [bind]; rewrite Ea.
    + rewrite (v_f2i _ (nth i res0 0 - SS u i * 2 ^ q)); [|apply v_sub; [apply v_of|exact V|]|]; try lia.
      cbn [bind]. rewrite set_ok by lia. first [reflexivity | do 2 f_equal; lia].
    + rewrite (v_f2i _ (nth i res0 0 + SS u i * 2 ^ q)); [|apply v_add; [apply v_of|exact V|]|]; try lia.
      cbn [bind]. rewrite set_ok by lia. first [reflexivity | do 2 f_equal; lia].
Qed.

Lemma x_tnn_ii : m_mode c = TNN_II -> xgoal.
Proof.
  intros Hmode.
  assert (Hvb : forall j, (j < n)%nat -> ter (vv j)).
  { intros j Hj. specialize (Hv j Hj). unfold vok in Hv. now rewrite Hmode in Hv. }
  assert (H2 : two_arrays (m_mode c) = true) by now rewrite Hmode.
  unfold xgoal, a_mvm. rewrite (sh_mode _ _ Hs), Hmode. unfold tnn_ii_a. pose proof vdp_len as Hvl.
  rewrite (load_ok vec n bit0_ii (fun v => if v =? 0 then 0 else 1)) by (auto; lia). cbn [bind].
  change (upto n _ (vd_p mp)) with (rail (fun v => if v =? 0 then 0 else 1) (vd_p mp)). set (u := rail _ _).
  assert (Lu : len u = colsN c) by (unfold u; now rewrite rail_len).
  assert (Nu : forall j, (j < n)%nat -> nth j u 0 = (if vv j =? 0 then 0 else 1)) by (intros j Hj; unfold u; now rewrite rail_nth).
  assert (Bu : forall j, (j < n)%nat -> 0 <= nth j u 0 <= 1) by (intros j Hj; rewrite Nu by auto; destruct (_ =? _); lia).
  destruct (slice_ok 0 false u (@tmp FM mp) res H2 ltac:(lia) Lu Bu tmp_len Hres) as (t & E1 & Lt).
  { intros i Hi. pose proof (HR3 i Hi) as R3. change (2 ^ 0) with 1. lia. }
  change (2 ^ 0) with 1 in E1. rewrite E1. cbn [bind].
  rewrite (load_ok vec n bit1_ii (fun v => if v =? -1 then 1 else 0)) by (auto; lia). cbn [bind].
  change (upto n _ u) with (rail (fun v => if v =? -1 then 1 else 0) u). set (w := rail _ u).
  assert (Lw : len w = colsN c) by (unfold w; now rewrite rail_len).
  assert (Nw : forall j, (j < n)%nat -> nth j w 0 = (if vv j =? -1 then 1 else 0)) by (intros j Hj; unfold w; now rewrite rail_nth).
  assert (Bw : forall j, (j < n)%nat -> 0 <= nth j w 0 <= 1) by (intros j Hj; rewrite Nw by auto; destruct (_ =? _); lia).
  destruct (slice_ok 1 true w t (upto m (fun i x => x + 1 * (SS u i * 1)) res) H2 ltac:(lia) Lw Bw Lt ltac:(now rewrite upto_length)) as (t' & E2 & Lt').
  { intros i Hi. rewrite nth_upto_lt by lia. pose proof (HR3 i Hi) as R3. pose proof (sum_cell i u Hi Bu). change (2 ^ 1) with 2. lia. }
  change (2 ^ 1) with 2 in E2. rewrite E2. cbn [bind]. eexists. do 3 f_equal.
  rewrite upto_upto. apply (upto_ext m _ _ res 0). intros i Hi _.
  rewrite (dres_lin i (fun j => (gp i j - gm i j) * nth j u 0 + -2 * ((gp i j - gm i j) * nth j w 0)) 0).
  - rewrite sumZ_add, sumZ_mul_l. lia.
  - unfold kap. now rewrite Hmode.
  - intros j Hj. rewrite Nu, Nw by auto. unfold cellv, cellb. rewrite Hmode.
    destruct (Hvb j Hj) as [-> |[-> | ->]]; cbn [Z.eqb Pos.eqb]; ring.
Qed.

Lemma x_tnn_iii : m_mode c = TNN_III -> xgoal.
Proof.
  intros Hmode.
  assert (Hvb : forall j, (j < n)%nat -> ter (vv j)).
  { intros j Hj. specialize (Hv j Hj). unfold vok in Hv. now rewrite Hmode in Hv. }
  assert (H2 : two_arrays (m_mode c) = true) by now rewrite Hmode.
  unfold xgoal, a_mvm. rewrite (sh_mode _ _ Hs), Hmode. unfold tnn_iii_a. pose proof vdp_len as Hvl.
  rewrite (load_ok vec n bit0_iii (fun v => if v =? 0 then 1 else 0))
    by (try lia; intros j Hj; destruct (Hvb j Hj) as [-> |[-> | ->]]; reflexivity). cbn [bind].
  change (upto n _ (vd_p mp)) with (rail (fun v => if v =? 0 then 1 else 0) (vd_p mp)). set (u := rail _ _).
  assert (Lu : len u = colsN c) by (unfold u; now rewrite rail_len).
  assert (Nu : forall j, (j < n)%nat -> nth j u 0 = (if vv j =? 0 then 1 else 0)) by (intros j Hj; unfold u; now rewrite rail_nth).
  assert (Bu : forall j, (j < n)%nat -> 0 <= nth j u 0 <= 1) by (intros j Hj; rewrite Nu by auto; destruct (_ =? _); lia).
  destruct (slice_ok 0 false u (@tmp FM mp) res H2 ltac:(lia) Lu Bu tmp_len Hres) as (t & E1 & Lt).
  { intros i Hi. pose proof (HR3 i Hi) as R3. change (2 ^ 0) with 1. lia. }
  change (2 ^ 0) with 1 in E1. rewrite E1. cbn [bind].
  rewrite (load_ok vec n bit1_iii (fun v => if v =? 1 then 1 else 0))
    by (try lia; intros j Hj; destruct (Hvb j Hj) as [-> |[-> | ->]]; reflexivity). cbn [bind].
  change (upto n _ u) with (rail (fun v => if v =? 1 then 1 else 0) u). set (w := rail _ u).
  assert (Lw : len w = colsN c) by (unfold w; now rewrite rail_len).
  assert (Nw : forall j, (j < n)%nat -> nth j w 0 = (if vv j =? 1 then 1 else 0)) by (intros j Hj; unfold w; now rewrite rail_nth).
  assert (Bw : forall j, (j < n)%nat -> 0 <= nth j w 0 <= 1) by (intros j Hj; rewrite Nw by auto; destruct (_ =? _); lia).
  destruct (slice_ok 1 false w t (upto m (fun i x => x + 1 * (SS u i * 1)) res) H2 ltac:(lia) Lw Bw Lt ltac:(now rewrite upto_length)) as (t' & E2 & Lt').
  { intros i Hi. rewrite nth_upto_lt by lia. pose proof (HR3 i Hi) as R3. pose proof (sum_cell i u Hi Bu). change (2 ^ 1) with 2. lia. }
  change (2 ^ 1) with 2 in E2. rewrite E2. cbn [bind].
  assert (ED : forall i, (i < m)%nat -> dres c mp vec n i 0 = SS u i + 2 * SS w i - nth i (sum_w mp) 0).
  { intros i Hi. rewrite (dres_lin i (fun j => (gp i j - gm i j) * nth j u 0 + 2 * ((gp i j - gm i j) * nth j w 0)) 1).
    - rewrite sumZ_add, sumZ_mul_l. ring.
    - unfold kap. now rewrite Hmode.
    - intros j Hj. rewrite Nu, Nw by auto. unfold cellv, cellb. rewrite Hmode.
      destruct (Hvb j Hj) as [-> |[-> | ->]]; cbn [Z.eqb Pos.eqb]; ring. }
  rewrite upto_upto.
  rewrite (rows_eq m _ (fun i x => x - nth i (sum_w mp) 0) _ 0).
  - cbn [bind]. eexists. do 3 f_equal. rewrite upto_upto. apply (upto_ext m _ _ res 0). intros i Hi _. rewrite ED by exact Hi. lia.
  - now rewrite upto_length.
  - intros i a Hi La Ea. rewrite upto_length in La. rewrite nth_upto_lt in Ea by lia.
    rewrite (get_ok (sum_w mp) i 0) by (rewrite (sh_sw _ _ Hs); lia). cbn [bind].
    rewrite (subto_ok _ _ _ 0); [reflexivity|lia|]. rewrite Ea. pose proof (HR2 i Hi) as R2. pose proof (HR3 i Hi) as R3. rewrite ED in R2 by exact Hi.
    unfold int_min, int_max. lia.
Qed.

(** *** TNN_IV and TNN_V *)
Lemma rail_sum (second : bool) (u : list Z) i q : (i < m)%nat -> (q <= n)%nat -> (forall j, (j < n)%nat -> 0 <= nth j u 0 <= 1) ->
  0 <= sumZ q (fun j => (h + (if second then gm i j else gp i j) * 2 ^ k) * nth j u 0) <= Z.of_nat q * (h + 2 ^ k).
Proof.
  intros Hi Hq Hu. pose proof d_pos.
  assert (B : forall j, (j < q)%nat -> 0 <= (h + (if second then gm i j else gp i j) * 2 ^ k) * nth j u 0 <= h + 2 ^ k).
  { intros j Hj. pose proof (cell01 i j Hi ltac:(lia)) as C. specialize (Hu j ltac:(lia)).
    assert (0 <= (if second then gm i j else gp i j) <= 1) as C' by (destruct second; lia).
    assert (0 <= (if second then gm i j else gp i j) * 2 ^ k <= 2 ^ k) by nia. nia. }
  split; [apply sumZ_nonneg; intros; now apply B|]. rewrite <- (sumZ_const q (h + 2 ^ k)). apply sumZ_le. intros; now apply B.
Qed.
Lemma tc_ok (second : bool) u q off O (sub : bool) (t0 fp0 : list (@F FM)) (P : nat -> Z) :
  two_arrays (m_mode c) = true -> Z.of_nat n * (h + 2 ^ k) < lim ->
  (m <= len t0)%nat -> (m <= len fp0)%nat -> len u = colsN c -> (forall j, (j < n)%nat -> 0 <= nth j u 0 <= 1) ->
  0 <= q <= 1 -> val (-1) off O ->
  let X i := 2 * sumZ n (fun j => (h + (if second then gm i j else gp i j) * 2 ^ k) * nth j u 0) + O in
  (forall i, (i < m)%nat -> Z.abs (X i) < lim) ->
  (forall i, (i < m)%nat -> val (-1 - k) (nth i fp0 (@f0 FM)) (P i)) ->
  (forall i, (i < m)%nat -> Z.abs (P i + (if sub then -1 else 1) * (X i * 2 ^ q)) < lim) ->
  exists t fp, @tc_pass FM c mp (if second then @ia_m FM mp else @ia_p FM mp) u m n l (2 ^ q) off sub t0 fp0 e = Ok (t, fp, e) /\
    (m <= len t)%nat /\ len fp = len fp0 /\
    forall i, (i < m)%nat -> val (-1 - k) (nth i fp (@f0 FM)) (P i + (if sub then -1 else 1) * (X i * 2 ^ q)).
Proof.
  intros H2 Hb Lt Lf Lu Hu Hq Hoff X HX HP HPX. pose proof d_pos as Hd. unfold tc_pass.
  set (g i j := if second then gm i j else gp i j) in *.
  assert (G01 : forall i j, (i < m)%nat -> (j < n)%nat -> 0 <= g i j <= 1).
  { intros i j Hi Hj. pose proof (cell01 i j Hi Hj). unfold g. destruct second; lia. }
  destruct (facc_fill m n (@fterm1 FM (if second then @ia_m FM mp else @ia_p FM mp) u)
     (fun i j => @fmul FM (nominal (g i j)) (@f_of_Z FM (nth j u 0))) t0 Lt
     (fun i j Hi Hj => fterm1_ok second u i j _ Hi Hj Lu (fun _ => H2) eq_refl)) as (t1 & E1 & L1 & V1).
  destruct (v_sc q Hq) as (sc & Esc & Vsc).
  rewrite E1. cbn [bind]. rewrite Esc. cbn [bind].
  set (cv := fun x : @F FM => @fmul FM (@fadd FM x off) sc).
  assert (E2 : @adc_vec FM c (mp_adc mp) l m t1 sc off e = Ok (upto m (fun _ x => cv x) t1, e)).
  { unfold adc_vec. replace (len t1 <? m)%nat with false by lia. rewrite Hprof. cbn [bind].
    rewrite (rows_eq m _ (fun _ x => cv x) t1 (@f0 FM) ltac:(lia)); [reflexivity|].
    intros i b Hi Hl _. rewrite (get_ok b i (@f0 FM)) by lia. cbn [bind]. unfold adc1. rewrite Hinf. cbn [bind].
    now rewrite set_ok by lia. }
  rewrite E2. cbn [bind]. set (t := upto m _ t1).
  assert (Lt' : len t = len t1) by apply upto_length.
  assert (Vt : forall i, (i < m)%nat -> val (-1 - k) (nth i t (@f0 FM)) (X i * 2 ^ q)).
  { intros i Hi. unfold t. rewrite nth_upto_lt by lia. rewrite V1 by exact Hi. unfold cv.
    set (S := sumZ n (fun j => (h + g i j * 2 ^ k) * nth j u 0)) in *.
    assert (A : val 0 (fsum n (@f0 FM) (fun j => @fmul FM (nominal (g i j)) (@f_of_Z FM (nth j u 0)))) S).
    { apply v_fsum; [intros j Hj; apply v_term1; auto|]. intros r Hr. pose proof (rail_sum second u i r Hi Hr Hu) as R. fold g in R.
      rewrite Z.abs_eq by (apply R). assert (Z.of_nat r * (h + 2 ^ k) <= Z.of_nat n * (h + 2 ^ k)) by nia. unfold g. lia. }
    apply (val_down (-1) _ _ 1) in A; [|lia]. change (2 ^ 1) with 2 in A.
    assert (B : val (-1) (@fadd FM (fsum n (@f0 FM) (fun j => @fmul FM (nominal (g i j)) (@f_of_Z FM (nth j u 0)))) off) (X i)).
    { replace (X i) with (S * 2 + O) by (unfold X, S, g; ring). apply val_add; [exact A|exact Hoff| |lia].
      specialize (HX i Hi). replace (S * 2 + O) with (X i) by (unfold X, S, g; ring). exact HX. }
    apply val_down; [|lia]. replace (-1 - k + q) with (-1 + (q - k)) by lia. rewrite <- (Z.mul_1_r (X i)).
    apply val_mul; [exact B|exact Vsc|rewrite Z.mul_1_r; now apply HX|lia]. }
  rewrite (rows_eq m _ (fun i x => if sub then @fsub FM x (nth i t (@f0 FM)) else @fadd FM x (nth i t (@f0 FM))) fp0 (@f0 FM) Lf).
  - cbn [bind]. eexists t, _. split; [reflexivity|]. split; [lia|]. split; [apply upto_length|].
    intros i Hi. rewrite nth_upto_lt by lia. specialize (Vt i Hi). specialize (HP i Hi). specialize (HPX i Hi). destruct sub.
    + replace (P i + -1 * (X i * 2 ^ q)) with (P i - X i * 2 ^ q) in * by ring. apply val_sub; auto; lia.
    + rewrite Z.mul_1_l in *. apply val_add; auto; lia.
  - intros i a Hi La _. rewrite (get_ok t i (@f0 FM)) by lia. cbn [bind].
    destruct sub; unfold fsubto, faddto; rewrite (get_ok a i (@f0 FM)) by lia; cbn [bind]; now rewrite set_ok by lia.
Qed.

Lemma x_tc (v : bool) : m_mode c = (if v then TNN_V else TNN_IV) -> xgoal.
Proof.
  intros Hmode. pose proof d_pos as Hd.
  assert (Hvb : forall j, (j < n)%nat -> ter (vv j)).
  { intros j Hj. specialize (Hv j Hj). unfold vok in Hv. destruct v; now rewrite Hmode in Hv. }
  assert (H6 : 6 * (Z.of_nat n * (h + 2 ^ k)) < lim) by (apply Hh5; rewrite Hmode; destruct v; auto).
  assert (H2 : two_arrays (m_mode c) = true) by (destruct v; now rewrite Hmode).
  assert (Lvm : len (vd_m mp) = colsN c) by (apply Hs; destruct v; now rewrite Hmode).
  destruct (sh_tlm _ _ Hs) as (_ & _ & Lfp); [destruct v; auto|].
  assert (EA : @a_mvm FM c mp res vec mat m n l e = @tnn_tc_a FM v c mp res vec mat m n l e).
  { unfold a_mvm. rewrite (sh_mode _ _ Hs), Hmode. destruct v; reflexivity. }
  assert (HS : SPLIT c = [1; 1]%Z) by (unfold cfg_wf in Hw; destruct v; now rewrite Hmode in Hw).
  assert (Nnn : 0 <= Z.of_nat n * h) by nia. assert (Nnd : 0 <= Z.of_nat n * 2 ^ k) by nia.
  assert (Nlim : 6 * Z.of_nat n < lim) by nia.
  unfold xgoal. rewrite EA. unfold tnn_tc_a. pose proof vdp_len as Hvl.
  rewrite HS. change (split11 [1; 1]%Z) with true. cbn iota.
  rewrite (sum64_ok vec n 1); auto; [|unfold int_max in *; lia|].
  2: { intros j Hj. destruct (Hvb j Hj) as [-> |[-> | ->]]; lia. }
  cbn [bind]. rewrite two_rail_ok by (auto; lia). cbn [bind].
  change (upto n _ (vd_p mp)) with (rail posp (vd_p mp)). set (up := rail posp _).
  change (upto n _ (vd_m mp)) with (rail negp (vd_m mp)). set (um := rail negp _).
  assert (Lp : len up = colsN c) by (unfold up; now rewrite rail_len).
  assert (Lm : len um = colsN c) by (unfold um; now rewrite rail_len).
  assert (Np : forall j, (j < n)%nat -> nth j up 0%Z = posp (vv j)) by (intros; unfold up; now apply rail_nth).
  assert (Nm : forall j, (j < n)%nat -> nth j um 0%Z = negp (vv j)) by (intros; unfold um; now apply rail_nth).
  assert (Bp : forall j, (j < n)%nat -> 0 <= nth j up 0 <= 1) by (intros j Hj; rewrite Np by auto; pose proof (ter_rails _ (Hvb j Hj)); lia).
  assert (Bm : forall j, (j < n)%nat -> 0 <= nth j um 0 <= 1) by (intros j Hj; rewrite Nm by auto; pose proof (ter_rails _ (Hvb j Hj)); lia).
  set (isum := sumZ n (fun j => vv j)).
  set (np := sumZ n (fun j => nth j up 0)). set (nm := sumZ n (fun j => nth j um 0)).
  assert (Esm : isum = np - nm).
  { unfold isum, np, nm. rewrite <- sumZ_sub. apply sumZ_ext. intros j Hj. rewrite Np, Nm by auto. symmetry. apply pos_neg. }
  assert (B1 : 0 <= np) by (apply sumZ_nonneg; intros j Hj; now apply Bp).
  assert (B2 : 0 <= nm) by (apply sumZ_nonneg; intros j Hj; now apply Bm).
  assert (B3 : np + nm <= Z.of_nat n).
  { unfold np, nm. rewrite <- sumZ_add, <- (Z.mul_1_r (Z.of_nat n)), <- sumZ_const. apply sumZ_le. intros j Hj.
    rewrite Np, Nm by auto. pose proof (ter_rails _ (Hvb j Hj)). lia. }
  set (G (s2 : bool) (u : list Z) (i : nat) := sumZ n (fun j => (if s2 then gm i j else gp i j) * nth j u 0)).
  assert (ES : forall (s2 : bool) (u : list Z) i, sumZ n (fun j => (h + (if s2 then gm i j else gp i j) * 2 ^ k) * nth j u 0) =
     sumZ n (fun j => nth j u 0) * h + G s2 u i * 2 ^ k).
  { intros s2 u i. unfold G. rewrite <- !sumZ_mul_r, <- sumZ_add. apply sumZ_ext. intros; ring. }
  assert (BG : forall (s2 : bool) (u : list Z) i, (i < m)%nat -> (forall j, (j < n)%nat -> 0 <= nth j u 0 <= 1) -> 0 <= G s2 u i <= sumZ n (fun j => nth j u 0)).
  { intros s2 u i Hi Hu. unfold G. split; [apply sumZ_nonneg|apply sumZ_le]; intros j Hj; pose proof (cell01 i j Hi Hj); specialize (Hu j Hj);
      destruct s2; nia. }
  assert (ESf : forall (u : list Z) i, sumZ n (fun j => (h + gp i j * 2 ^ k) * nth j u 0) =
     sumZ n (fun j => nth j u 0) * h + G false u i * 2 ^ k) by (intros; apply (ES false)).
  assert (ESt : forall (u : list Z) i, sumZ n (fun j => (h + gm i j * 2 ^ k) * nth j u 0) =
     sumZ n (fun j => nth j u 0) * h + G true u i * 2 ^ k) by (intros; apply (ES true)).
  (* products as atoms *)
  assert (A1 : 0 <= np * h /\ 0 <= nm * h /\ np * h + nm * h <= Z.of_nat n * h) by nia.
  assert (A2 : 0 <= np * 2 ^ k /\ 0 <= nm * 2 ^ k /\ np * 2 ^ k + nm * 2 ^ k <= Z.of_nat n * 2 ^ k) by nia.
  assert (A3 : forall s2 i, (i < m)%nat -> 0 <= G s2 up i * 2 ^ k <= np * 2 ^ k /\ 0 <= G s2 um i * 2 ^ k <= nm * 2 ^ k).
  { intros s2 i Hi. pose proof (BG s2 up i Hi Bp) as K1. pose proof (BG s2 um i Hi Bm) as K2. fold np in K1. fold nm in K2. nia. }
  assert (A4 : Z.of_nat n * (h + 2 ^ k) = Z.of_nat n * h + Z.of_nat n * 2 ^ k) by ring. rewrite A4 in H6.
  assert (A5 : isum * h = np * h - nm * h) by (rewrite Esm; ring).
  assert (E3i : (if v then chk64 (3 * isum) else Ok isum) = Ok (if v then 3 * isum else isum)).
  { destruct v; [|reflexivity]. apply chk64_ok. unfold int_max in *. lia. }
  rewrite E3i. cbn [bind]. rewrite Hpar. set (i3 := if v then 3 * isum else isum).
  set (offp := if v then @f0 FM else _). set (offm := if v then _ else _).
  assert (Vc : val 0 (@fmul FM (@f_of_Z FM i3) (@HRS FM c)) (i3 * h)).
  { apply v_mul; [apply v_of; unfold i3; destruct v; lia|apply v_hrs|]. unfold i3. destruct v; lia. }
  assert (V2 : val 0 (@f_of_Z FM 2) (2 ^ 1)) by (apply v_of; reflexivity).
  set (Op := if v then 0 else isum * h). set (Om := if v then 6 * (isum * h) else - (isum * h)).
  assert (Vp : val (-1) offp Op).
  { unfold offp, Op. destruct v; [|apply (val_div 0 _ _ _ 1); auto; unfold i3 in *; lia].
    apply (val_down (-1) _ 0 1); [apply v_of; reflexivity|lia]. }
  assert (Vm : val (-1) offm Om).
  { unfold offm, Om. destruct v.
    - replace (6 * (isum * h)) with (i3 * h * 2 ^ 1) by (unfold i3; change (2 ^ 1) with 2; ring). apply (val_down (-1) _ _ 1); [exact Vc|lia].
    - apply (val_div 0 _ _ _ 1); auto; [|lia|lia|lia]. apply val_opp in Vc. exact Vc. }
  assert (V0 : val (-1) (@f0 FM) 0) by (apply (val_down (-1) _ 0 1); [apply v_of; reflexivity|lia]).
  assert (Vz : forall i, (i < m)%nat -> val (-1 - k) (nth i (fill (@tmp_fp FM mp) (@f0 FM)) (@f0 FM)) 0).
  { intros i Hi. rewrite nth_fill by (rewrite Lfp; lia). replace 0 with (0 * 2 ^ (1 + k)) by ring. apply val_down; [|lia].
    replace (-1 - k + (1 + k)) with 0 by lia. apply v_of. reflexivity. }
  assert (Hb1 : Z.of_nat n * (h + 2 ^ k) < lim) by (rewrite A4; lia).
  destruct (tc_ok false up 0 offp Op false (@tmp FM mp) (fill (@tmp_fp FM mp) (@f0 FM)) (fun _ => 0) H2 Hb1 tmp_len
    ltac:(rewrite fill_length, Lfp; exact Hm) Lp Bp ltac:(lia) Vp) as (t1 & p1 & E1 & T1 & L1 & W1); [|exact Vz|..].
  { intros i Hi. cbv beta iota zeta. rewrite (ESf up i). fold np. pose proof (A3 false i Hi). unfold Op. destruct v; lia. }
  { intros i Hi. cbv beta iota zeta. rewrite (ESf up i). fold np. pose proof (A3 false i Hi). change (2 ^ 0) with 1. unfold Op. destruct v; lia. }
  cbv beta iota zeta in E1. change (2 ^ 0) with 1 in E1. rewrite E1. cbn [bind].
  assert (M1 : (m <= len p1)%nat) by (rewrite L1, fill_length, Lfp; exact Hm).
  destruct (tc_ok false um 0 offm Om true t1 p1 (fun i => 0 + 1 * ((2 * sumZ n (fun j => (h + gp i j * 2 ^ k) * nth j up 0) + Op) * 2 ^ 0)) H2 Hb1 T1 M1 Lm Bm ltac:(lia) Vm) as (t2 & p2 & E2 & T2 & L2 & W2); [|exact W1|..].
  { intros i Hi. cbv beta iota zeta. rewrite (ESf um i). fold nm. pose proof (A3 false i Hi). unfold Om. destruct v; lia. }
  { intros i Hi. cbv beta iota zeta. rewrite (ESf um i), (ESf up i). fold np nm. pose proof (A3 false i Hi). change (2 ^ 0) with 1.
    unfold Op, Om. destruct v; lia. }
  cbv beta iota zeta in E2. change (2 ^ 0) with 1 in E2. rewrite E2. cbn [bind].
  destruct (tc_ok true up 1 (@f0 FM) 0 (negb v) t2 p2 (fun i => 0 + 1 * ((2 * sumZ n (fun j => (h + gp i j * 2 ^ k) * nth j up 0) + Op) * 2 ^ 0) + -1 * ((2 * sumZ n (fun j => (h + gp i j * 2 ^ k) * nth j um 0) + Om) * 2 ^ 0)) H2 Hb1 T2 ltac:(lia) Lp Bp ltac:(lia) V0) as (t3 & p3 & E3 & T3 & L3 & W3); [|exact W2|..].
  { intros i Hi. cbv beta iota zeta. rewrite (ESt up i). fold np. pose proof (A3 true i Hi). lia. }
  { intros i Hi. cbv beta iota zeta. rewrite (ESt up i), (ESf um i), (ESf up i). fold np nm.
    pose proof (A3 false i Hi). pose proof (A3 true i Hi). change (2 ^ 0) with 1. change (2 ^ 1) with 2.
    unfold Op, Om. destruct v; cbn [negb]; lia. }
  cbv beta iota zeta in E3. change (2 ^ 1) with 2 in E3. rewrite E3. cbn [bind].
  destruct (tc_ok true um 1 (@f0 FM) 0 v t3 p3 (fun i => 0 + 1 * ((2 * sumZ n (fun j => (h + gp i j * 2 ^ k) * nth j up 0) + Op) * 2 ^ 0) + -1 * ((2 * sumZ n (fun j => (h + gp i j * 2 ^ k) * nth j um 0) + Om) * 2 ^ 0) + (if negb v then -1 else 1) * ((2 * sumZ n (fun j => (h + gm i j * 2 ^ k) * nth j up 0) + 0) * 2 ^ 1)) H2 Hb1 T3 ltac:(lia) Lm Bm ltac:(lia) V0) as (t4 & p4 & E4 & T4 & L4 & W4); [|exact W3|..].
  { intros i Hi. cbv beta iota zeta. rewrite (ESt um i). fold nm. pose proof (A3 true i Hi). lia. }
  { intros i Hi. cbv beta iota zeta. rewrite (ESt up i), (ESt um i), (ESf um i), (ESf up i). fold np nm.
    pose proof (A3 false i Hi). pose proof (A3 true i Hi). change (2 ^ 0) with 1. change (2 ^ 1) with 2.
    unfold Op, Om. destruct v; cbn [negb]; lia. }
  cbv beta iota zeta in E4. change (2 ^ 1) with 2 in E4. rewrite E4. cbn [bind].
  set (T := fun i => G false up i - G false um i + (if v then 2 else -2) * (G true up i - G true um i)).
  assert (WT : forall i, (i < m)%nat -> val 0 (nth i p4 (@f0 FM)) (T i)).
  { intros i Hi. specialize (W4 i Hi). cbv beta iota zeta in W4.
    rewrite (ESt up i), (ESt um i), (ESf um i), (ESf up i) in W4. fold np nm in W4.
    replace 0 with (-1 - k + (1 + k)) by lia. apply val_up; [|lia].
    rewrite Z.pow_add_r by lia. change (2 ^ 1) with 2. change (2 ^ 0) with 1 in W4. change (2 ^ 1) with 2 in W4.
    match type of W4 with val _ _ ?a => replace (T i * (2 * 2 ^ k)) with a; [exact W4|] end.
    unfold T, Op, Om. destruct v; cbn [negb]; lia. }
  assert (ED : forall i, (i < m)%nat -> dres c mp vec n i 0 = T i - if v then isum else 0).
  { intros i Hi. rewrite (dres_lin i (fun j => (if v then gp i j + 2 * gm i j else gp i j - 2 * gm i j) * vv j - (if v then vv j else 0)) 0).
    - rewrite Z.mul_0_l, Z.sub_0_r. unfold T, G, isum. rewrite sumZ_sub.
      assert (ET : sumZ n (fun j => (if v then gp i j + 2 * gm i j else gp i j - 2 * gm i j) * vv j) =
        sumZ n (fun j => gp i j * nth j up 0) - sumZ n (fun j => gp i j * nth j um 0) + (if v then 2 else -2) *
          (sumZ n (fun j => gm i j * nth j up 0) - sumZ n (fun j => gm i j * nth j um 0))).
      { rewrite <- !sumZ_sub, <- sumZ_mul_l, <- sumZ_add. apply sumZ_ext. intros j Hj. rewrite Np, Nm by auto.
        rewrite <- (pos_neg (vv j)) at 1. destruct v; ring. }
      rewrite ET. destruct v; [reflexivity|]. rewrite sumZ_const. ring.
    - unfold kap. destruct v; now rewrite Hmode.
    - intros j Hj. unfold cellv, cellb. destruct v; rewrite Hmode; ring. }
  match goal with |- context [forN m ?b res] => rewrite (rows_eq m b (fun i x => x + dres c mp vec n i 0) res 0 Hres) end.
  - cbn [bind]. eauto.
  - intros i a Hi La Ea. rewrite (get_ok p4 i (@f0 FM)) by lia. cbn [bind].
    pose proof (HR3 i Hi) as R3. pose proof (HR2 i Hi) as R2. rewrite ED in R2 by exact Hi.
    assert (BT : Z.abs (T i) <= 3 * Z.of_nat n).
    { pose proof (BG false up i Hi Bp) as K1. pose proof (BG false um i Hi Bm) as K2. pose proof (BG true up i Hi Bp) as K3.
      pose proof (BG true um i Hi Bm) as K4. fold np in K1, K3. fold nm in K2, K4. unfold T. destruct v; lia. }
    unfold res_fadd. rewrite (get_ok a i 0) by lia. cbn [bind]. rewrite Ea.
    rewrite (v_f2i _ (nth i res 0 + T i)); [|apply v_add; [apply v_of; lia|now apply WT|lia]|lia]. cbn [bind].
    rewrite set_ok by lia. cbn [bind]. rewrite (ED i Hi). destruct v.
    + rewrite (subto64_ok _ _ _ 0).
      * rewrite upd_upd, nth_upd, Nat.eqb_refl by lia. do 2 f_equal. lia.
      * rewrite upd_length. lia.
      * rewrite nth_upd, Nat.eqb_refl by lia. unfold int_min, int_max. lia.
    + do 2 f_equal. lia.
Qed.

Lemma x_modes : xgoal.
Proof.
  pose proof Hx as HX. assert (exists md, m_mode c = md) as [md Hmode] by eauto. rewrite Hmode in HX.
  destruct md; try discriminate HX; clear HX.
  - now apply x_bnn_i.
  - now apply x_bnn_ii.
  - now apply (x_bnn_iii_iv false).
  - now apply (x_bnn_iii_iv true).
  - now apply x_bnn_v.
  - now apply (x_quad false).
  - now apply (x_quad true).
  - now apply x_tnn_ii.
  - now apply x_tnn_iii.
  - now apply (x_tc false).
  - now apply (x_tc true).
Qed.
End M.
End X.
