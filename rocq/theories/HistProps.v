(** ADC input histograms: C46, C47, C48. *)
From Coq Require Import String List ZArith Reals Bool Arith Lia Lra ZifyBool ZifyNat Permutation.
From RecordUpdate Require Import RecordSet.
From Flocq Require Import Core.
From Verif Require Import Base Lib Machine Json Config Histogram Adc ReadDisturb Parasitics
  Mapper IntMappers BnnMappers TnnMappers Crossbar Api RMachine RSpec Spec DigApi AdcProps.
Import ListNotations RecordSetNotations.
Local Open Scope Z_scope.
Local Open Scope out_scope.

Section Hist.
Context {MC : Machine}.
Notation len := List.length.

(** ** Conservation *)
Lemma total_upd l i x : (i < len l)%nat -> total (upd l i x) = total l + x - nth i l 0.
Proof.
  revert i. induction l as [|y l IH]; intros [|i] H; cbn in H |- *; try lia.
  fold (total (upd l i x)) (total l). rewrite IH by lia. lia.
Qed.
Lemma bump_total d i d' : bump d i = Ok d' -> total d' = total d + 1 /\ len d' = len d.
Proof.
  unfold bump, getz, setz. destruct (i <? 0); [discriminate|]. intros H.
  apply bind_Ok in H. destruct H as (x & Hx & H). apply bind_Ok in H. destruct H as (y & Hy & H).
  apply (get_inv _ _ _ 0) in Hx. destruct Hx as [Hi ->]. apply chk32_inv in Hy. destruct Hy as [-> _].
  apply set_inv in H. destruct H as [_ ->]. rewrite total_upd, upd_length by auto. lia.
Qed.
Lemma bumps_total is : forall d d', bumps is d = Ok d' ->
  total d' = total d + Z.of_nat (len is) /\ len d' = len d.
Proof.
  induction is as [|i is IH]; intros d d' H; cbn [bumps] in H.
  - inversion H; subst. cbn; lia.
  - apply bind_Ok in H. destruct H as (d1 & H1 & H). apply bump_total in H1. apply IH in H. cbn [len]. lia.
Qed.
Lemma mapM_length {A B} (f : A -> out B) l ys : mapM f l = Ok ys -> len ys = len l.
Proof.
  revert ys. induction l as [|x l IH]; intros ys H; cbn [mapM] in H; [inversion H; reflexivity|].
  apply bind_Ok in H. destruct H as (y & _ & H). apply bind_Ok in H. destruct H as (r & Hr & H).
  inversion H; subst. cbn. f_equal. now apply IH.
Qed.
Lemma hist_update_total vs h h' : hist_update vs h = Ok h' ->
  total (h_data h') = total (h_data h) + Z.of_nat (len vs) /\ len (h_data h') = len (h_data h) /\
  h_min h' = h_min h /\ h_max h' = h_max h /\ h_bin h' = h_bin h /\ h_vals h' = h_vals h.
Proof.
  unfold hist_update. intros H. apply bind_Ok in H. destruct H as (is & Hi & H).
  apply bind_Ok in H. destruct H as (d & Hd & H). inversion H; subst.
  change (h_data (h <| h_data := d |>)) with d.
  apply mapM_length in Hi. apply bumps_total in Hd. destruct Hd as [-> Hl]. rewrite Hi. repeat split; auto.
Qed.
Lemma hist_new_total mn mx b h : hist_new mn mx b = Ok h -> total (h_data h) = 0.
Proof.
  unfold hist_new. destruct (f_trunc _) as [z|]; [|discriminate]. destruct (_ && _); [|discriminate].
  intros H. inversion H; subst. cbn. unfold total. generalize (Z.to_nat z). intros k.
  induction k as [|k IH]; cbn; lia.
Qed.

Lemma assoc_hput hs l h l' : assoc l' (hput hs l h) = if String.eqb l' l then Some h else assoc l' hs.
Proof.
  induction hs as [|[k h'] hs IH]; cbn [hput assoc].
  - reflexivity.
  - destruct (String.eqb l k) eqn:E; cbn [assoc].
    + apply String.eqb_eq in E. subst k. destruct (String.eqb l' l); reflexivity.
    + rewrite IH. destruct (String.eqb l' k) eqn:E1; auto.
      destruct (String.eqb l' l) eqn:E2; auto. apply String.eqb_eq in E1, E2. subst. rewrite String.eqb_refl in E. discriminate.
Qed.
Lemma assoc_lookup' {A} l (d : list (string * A)) : assoc l d = lookup l d.
Proof.
  induction d as [|[k v] d IH]; [reflexivity|]. cbn. unfold lookup in *. cbn.
  destruct (String.eqb l k); [reflexivity|exact IH].
Qed.

Definition samples (o : option hist) : Z := match o with Some h => total (h_data h) | None => 0 end.

Lemma conserves : forall c a l vs e e',
  profile c a l vs e = Ok e' ->
  samples (lookup l (histo e')) = samples (lookup l (histo e)) + Z.of_nat (len vs) /\
  (forall l', l' <> l -> lookup l' (histo e') = lookup l' (histo e)) /\ draws e' = draws e.
Proof.
  intros c a l vs e e' H. unfold profile in H. apply bind_Ok in H. destruct H as (h & Hh & H).
  apply bind_Ok in H. destruct H as (h' & Hu & H). inversion H; subst. clear H. cbn [histo draws].
  change (histo (e <| histo := _ |>)) with (hput (histo e) l h'). rewrite <- !assoc_lookup', assoc_hput, String.eqb_refl.
  split; [|split; [|reflexivity]].
  - apply hist_update_total in Hu. cbn [samples]. destruct (assoc l (histo e)); cbn [samples].
    + inversion Hh; subst. lia.
    + apply hist_new_total in Hh. lia.
  - intros l' Hl. rewrite <- !assoc_lookup', assoc_hput. destruct (String.eqb l' l) eqn:E; auto.
    apply String.eqb_eq in E. congruence.
Qed.

(** ** Profiling and results *)
Definition off (c : config) : config := c <| adc_profile := false |>.

Lemma off_currents c mp t vp vm m n u : currents (off c) mp t vp vm m n u = currents c mp t vp vm m n u.
Proof. reflexivity. Qed.
Lemma off_vec c a l k arr sc o e v e' : adc_vec c a l k arr sc o e = Ok (v, e') ->
  draws e' = draws e /\ forall e2, adc_vec (off c) a l k arr sc o e2 = Ok (v, e2).
Proof.
  unfold adc_vec. destruct (len arr <? k)%nat; [discriminate|]. intros H.
  apply bind_Ok in H. destruct H as (e1 & H1 & H). apply bind_Ok in H. destruct H as (v1 & H2 & H).
  inversion H; subst. split.
  - destruct (adc_profile c); [|inversion H1; reflexivity]. now apply conserves in H1.
  - intros e2. change (adc_profile (off c)) with false. cbn [bind].
    change (forN k (fun i v => x <- get v i ;; y <- adc1 (off c) a l x sc o ;; set v i y) arr)
      with (forN k (fun i v => x <- get v i ;; y <- adc1 c a l x sc o ;; set v i y) arr).
    rewrite H2. reflexivity.
Qed.

(** Same answer and same mapper without profiling, whatever the environment. *)
Definition unprofiled {A} (x : out (A * env)) (y : env -> out (A * env)) (e : env) : Prop :=
  forall r e', x = Ok (r, e') -> draws e' = draws e /\ forall e2, y e2 = Ok (r, e2).

Lemma un_bind {A B} (x : out A) (k1 : A -> out (B * env)) (k2 : A -> env -> out (B * env)) e :
  (forall a, unprofiled (k1 a) (k2 a) e) -> unprofiled (bind x k1) (fun e2 => bind x (fun a => k2 a e2)) e.
Proof.
  intros H r e' E. destruct x as [a| | |]; try discriminate. exact (H a r e' E).
Qed.
Lemma un_bind2 {A B} (x : out (A * env)) (y : env -> out (A * env))
    (k1 : A * env -> out (B * env)) (k2 : A * env -> out (B * env)) e :
  unprofiled x y e ->
  (forall a e1, draws e1 = draws e -> unprofiled (k1 (a, e1)) (fun e2 => k2 (a, e2)) e) ->
  unprofiled (bind x k1) (fun e2 => bind (y e2) k2) e.
Proof.
  intros Hx H r e' E. apply bind_Ok in E. destruct E as ([a e1] & E1 & E).
  destruct (Hx _ _ E1) as [D Y]. destruct (H a e1 D _ _ E) as [D' Y'].
  split; auto. intros e2. rewrite Y. cbn [bind]. apply Y'.
Qed.
Lemma un_ok {A} (r : A) e e1 : draws e1 = draws e -> unprofiled (Ok (r, e1)) (fun e2 => Ok (r, e2)) e.
Proof. intros D r' e' E. inversion E; subst. auto. Qed.
Lemma un_vec c a l k arr sc o e e1 : draws e1 = draws e ->
  unprofiled (adc_vec c a l k arr sc o e1) (adc_vec (off c) a l k arr sc o) e.
Proof. intros D r e' E. apply off_vec in E. destruct E. split; [congruence|auto]. Qed.

Lemma un_slice c mp v m n l k sub t res e e1 : draws e1 = draws e ->
  unprofiled (tnn_slice c mp v m n l k sub t res e1) (tnn_slice (off c) mp v m n l k sub t res) e.
Proof.
  intros D. unfold tnn_slice. apply un_bind. intros t1. rewrite ?off_currents.
  apply un_bind. intros sc. apply (un_bind2 (adc_vec c _ _ _ _ _ _ _)); [now apply un_vec|].
  intros t2 e3 D3. apply un_bind. intros r1. now apply un_ok.
Qed.
Lemma un_pass c mp ia v m n l k o sub t fp e e1 : draws e1 = draws e ->
  unprofiled (tc_pass c mp ia v m n l k o sub t fp e1) (tc_pass (off c) mp ia v m n l k o sub t fp) e.
Proof.
  intros D. unfold tc_pass. apply un_bind. intros t1.
  apply un_bind. intros sc. apply (un_bind2 (adc_vec c _ _ _ _ _ _ _)); [now apply un_vec|].
  intros t2 e3 D3. apply un_bind. intros r1. now apply un_ok.
Qed.
Lemma un_pass_par c mp v m n l o s1 s2 lsb msb fp e e1 : draws e1 = draws e ->
  unprofiled (tc_pass_par c mp v m n l o s1 s2 lsb msb fp e1) (tc_pass_par (off c) mp v m n l o s1 s2 lsb msb fp) e.
Proof.
  intros D. unfold tc_pass_par. apply un_bind. intros t1.
  apply un_bind. intros [a b]. apply un_bind. intros sc.
  apply (un_bind2 (adc_vec c _ _ _ _ _ _ _)); [now apply un_vec|].
  intros t2 e3 D3. apply un_bind. intros s'. apply (un_bind2 (adc_vec c _ _ _ _ _ _ _)); [now apply un_vec|].
  intros t3 e4 D4. apply un_bind. intros fp'. now apply un_ok.
Qed.

Lemma un_mvm c mp res vec mat m n l e :
  unprofiled (a_mvm c mp res vec mat m n l e) (a_mvm (off c) mp res vec mat m n l) e.
Proof.
  unfold a_mvm. cbv zeta.
  assert (P : forall x : out (list Z * mapper),
    unprofiled ('(r, mp') <- x ;; Ok (r, mp', e)) (fun e2 => '(r, mp') <- x ;; Ok (r, mp', e2)) e).
  { intros x r e' H. destruct x as [[a b]| | |]; try discriminate. cbn in *. inversion H; subst. auto. }
  destruct (mp_mode mp).
  1-6: apply P.
  - unfold bnn_i_a. apply un_bind. intros vd. rewrite ?off_currents. apply un_bind. intros t. apply un_bind. intros sc.
    apply (un_bind2 (adc_vec c _ _ _ _ _ _ _)); [now apply un_vec|]. intros t2 e3 D3. apply un_bind. intros r1. now apply un_ok.
  - unfold bnn_ii_a. apply un_bind. intros vd. rewrite ?off_currents. apply un_bind. intros t. apply un_bind. intros sc.
    apply (un_bind2 (adc_vec c _ _ _ _ _ _ _)); [now apply un_vec|]. intros t2 e3 D3. apply un_bind. intros r1. now apply un_ok.
  - unfold bnn_iii_iv_a. apply un_bind. intros [[vp vm] sm]. rewrite ?off_currents. apply un_bind. intros tp. apply un_bind. intros tm.
    apply un_bind. intros sc. apply un_bind. intros ns.
    apply (un_bind2 (adc_vec c _ _ _ _ _ _ _)); [now apply un_vec|]. intros t2 e3 D3.
    apply (un_bind2 (adc_vec c _ _ _ _ _ _ _)); [now apply un_vec|]. intros t3 e4 D4. apply un_bind. intros r1. now apply un_ok.
  - unfold bnn_iii_iv_a. apply un_bind. intros [[vp vm] sm]. rewrite ?off_currents. apply un_bind. intros tp. apply un_bind. intros tm.
    apply un_bind. intros sc. apply un_bind. intros ns.
    apply (un_bind2 (adc_vec c _ _ _ _ _ _ _)); [now apply un_vec|]. intros t2 e3 D3.
    apply (un_bind2 (adc_vec c _ _ _ _ _ _ _)); [now apply un_vec|]. intros t3 e4 D4. apply un_bind. intros r1. now apply un_ok.
  - unfold bnn_v_a. apply un_bind. intros [vp vm]. apply un_bind. intros t. apply un_bind. intros sc.
    apply (un_bind2 (adc_vec c _ _ _ _ _ _ _)); [now apply un_vec|]. intros t2 e3 D3. apply un_bind. intros r1. now apply un_ok.
  - unfold quad_a. apply un_bind. intros [vp vm]. apply un_bind. intros t. apply un_bind. intros sc.
    apply (un_bind2 (adc_vec c _ _ _ _ _ _ _)); [now apply un_vec|]. intros t2 e3 D3. apply un_bind. intros r1. now apply un_ok.
  - unfold quad_a. apply un_bind. intros [vp vm]. apply un_bind. intros t. apply un_bind. intros sc.
    apply (un_bind2 (adc_vec c _ _ _ _ _ _ _)); [now apply un_vec|]. intros t2 e3 D3. apply un_bind. intros r1. now apply un_ok.
  - unfold tnn_ii_a. apply un_bind. intros v0. apply (un_bind2 (tnn_slice c _ _ _ _ _ _ _ _ _ _)); [now apply un_slice|].
    intros [r1 t1] e1 D1. apply un_bind. intros v1. apply (un_bind2 (tnn_slice c _ _ _ _ _ _ _ _ _ _)); [now apply un_slice|].
    intros [r2 t2] e2 D2. now apply un_ok.
  - unfold tnn_iii_a. apply un_bind. intros v0. apply (un_bind2 (tnn_slice c _ _ _ _ _ _ _ _ _ _)); [now apply un_slice|].
    intros [r1 t1] e1 D1. apply un_bind. intros v1. apply (un_bind2 (tnn_slice c _ _ _ _ _ _ _ _ _ _)); [now apply un_slice|].
    intros [r2 t2] e2 D2. apply un_bind. intros r3. now apply un_ok.
  - unfold tnn_tc_a. change (SPLIT (off c)) with (SPLIT c). destruct (split11 _); [|intros r e' H; discriminate].
    cbv zeta. change (HRS (off c)) with (HRS c). apply un_bind. intros isum. apply un_bind. intros [vp vm]. apply un_bind. intros i3.
    change (parasitics (off c)) with (parasitics c).
    match goal with |- unprofiled (bind ?x _) (fun e2 => bind (@?y e2) _) _ => apply (un_bind2 x y) end.
    + destruct (parasitics c).
      * apply (un_bind2 (tc_pass_par c _ _ _ _ _ _ _ _ _ _ _ _)); [now apply un_pass_par|].
        intros [[[? ?] ?] ?] e1 D1. now apply un_pass_par.
      * apply (un_bind2 (tc_pass c _ _ _ _ _ _ _ _ _ _ _ _)); [now apply un_pass|]. intros [? ?] e1 D1.
        apply (un_bind2 (tc_pass c _ _ _ _ _ _ _ _ _ _ _ _)); [now apply un_pass|]. intros [? ?] e2 D2.
        apply (un_bind2 (tc_pass c _ _ _ _ _ _ _ _ _ _ _ _)); [now apply un_pass|]. intros [? ?] e3 D3.
        apply (un_bind2 (tc_pass c _ _ _ _ _ _ _ _ _ _ _ _)); [now apply un_pass|]. intros [? ?] e4 D4.
        now apply un_ok.
    + intros [[[? ?] ?] ?] e1 D1. apply un_bind. intros r1. now apply un_ok.
  - unfold tnn_tc_a. change (SPLIT (off c)) with (SPLIT c). destruct (split11 _); [|intros r e' H; discriminate].
    cbv zeta. change (HRS (off c)) with (HRS c). apply un_bind. intros isum. apply un_bind. intros [vp vm]. apply un_bind. intros i3.
    change (parasitics (off c)) with (parasitics c).
    match goal with |- unprofiled (bind ?x _) (fun e2 => bind (@?y e2) _) _ => apply (un_bind2 x y) end.
    + destruct (parasitics c).
      * apply (un_bind2 (tc_pass_par c _ _ _ _ _ _ _ _ _ _ _ _)); [now apply un_pass_par|].
        intros [[[? ?] ?] ?] e1 D1. now apply un_pass_par.
      * apply (un_bind2 (tc_pass c _ _ _ _ _ _ _ _ _ _ _ _)); [now apply un_pass|]. intros [? ?] e1 D1.
        apply (un_bind2 (tc_pass c _ _ _ _ _ _ _ _ _ _ _ _)); [now apply un_pass|]. intros [? ?] e2 D2.
        apply (un_bind2 (tc_pass c _ _ _ _ _ _ _ _ _ _ _ _)); [now apply un_pass|]. intros [? ?] e3 D3.
        apply (un_bind2 (tc_pass c _ _ _ _ _ _ _ _ _ _ _ _)); [now apply un_pass|]. intros [? ?] e4 D4.
        now apply un_ok.
    + intros [[[? ?] ?] ?] e1 D1. apply un_bind. intros r1. now apply un_ok.
Qed.

(** ** Dependence on the environment *)

(** [g] uses the environment only through the number of samples drawn and keeps the histograms. *)
Definition match_env {A} (e1 e2 : env) (x y : out (A * env)) : Prop :=
  match x, y with
  | Ok (a, e1'), Ok (b, e2') => a = b /\ draws e1' = draws e2' /\ histo e1' = histo e1 /\ histo e2' = histo e2
  | UB f, UB f' => f = f'
  | Died, Died => True
  | Threw, Threw => True
  | _, _ => False
  end.
Definition by_draws {A} (g : env -> out (A * env)) : Prop :=
  forall e1 e2, draws e1 = draws e2 -> match_env e1 e2 (g e1) (g e2).

Lemma bd_ok {A} (a : A) : by_draws (fun e => Ok (a, e)).
Proof. intros e1 e2 D. cbn. auto. Qed.
Lemma bd_fail {A} (x : out False) : by_draws (A := A) (fun e => bind x (fun a => match a with end)).
Proof. intros e1 e2 D. destruct x; cbn; auto. contradiction. Qed.
Lemma bd_bind {A B} (g : env -> out (A * env)) (h : A * env -> out (B * env)) :
  by_draws g -> (forall a, by_draws (fun e => h (a, e))) -> by_draws (fun e => bind (g e) h).
Proof.
  intros Hg Hh e1 e2 D. specialize (Hg e1 e2 D). unfold match_env in Hg.
  destruct (g e1) as [[a f1]|f1| |], (g e2) as [[b f2]|f2| |]; try contradiction; cbn [bind]; auto.
  destruct Hg as (-> & D' & H1 & H2). specialize (Hh b f1 f2 D'). unfold match_env in *.
  destruct (h (b, f1)) as [[? ?]|?| |], (h (b, f2)) as [[? ?]|?| |]; auto.
  intuition congruence.
Qed.
Lemma bd_pure {A B} (x : out A) (h : A -> env -> out (B * env)) :
  (forall a, by_draws (h a)) -> by_draws (fun e => bind x (fun a => h a e)).
Proof. intros H e1 e2 D. destruct x as [a| | |]; cbn [bind]; [now apply H|cbn; auto..]. Qed.
Lemma bd_draws {A B} (g : nat -> out A) (h : A -> B) (k : A -> nat) :
  by_draws (fun e => bind (g (draws e)) (fun a => Ok (h a, e <| draws := k a |>))).
Proof. intros e1 e2 D. rewrite D. destruct (g (draws e2)) as [a| | |]; cbn; auto. Qed.

Lemma bd_add_c2c c mp m n : by_draws (add_c2c c mp m n).
Proof.
  intros e1 e2 D. unfold add_c2c. rewrite D.
  match goal with |- context [bind ?x _] => destruct x as [[[ip im] k]| | |] end; cbn; auto.
Qed.
Lemma bd_a_write c mp m n : by_draws (a_write c mp m n).
Proof.
  unfold a_write. cbv zeta. apply bd_bind.
  - destruct (is_int (mp_mode mp)).
    + apply bd_pure. intros mp'. apply bd_ok.
    + intros e1 e2 D. unfold a_write_xnn. rewrite D.
      match goal with |- context [bind ?x _] => destruct x as [[[[[ip ip0] im] im0] k]| | |] end; cbn; auto.
  - intros mp'. destruct (parasitics c); [|apply bd_ok]. apply bd_pure. intros p. apply bd_ok.
Qed.
Lemma bd_cell_refresh c mp r : by_draws (cell_refresh c mp r).
Proof.
  intros e1 e2 D. unfold cell_refresh. rewrite D.
  match goal with |- context [bind ?x _] => destruct x as [[[[[ip ip0] im] im0] k]| | |] end; cbn [bind]; cbn; auto.
  destruct (mp_diff mp); [|cbn; auto].
  match goal with |- context [bind ?x _] => destruct x as [[[[[? ?] ?] ?] ?]| | |] end; cbn [bind]; cbn; auto.
Qed.
Lemma bd_soft_refresh c x r : by_draws (soft_refresh c x r).
Proof.
  unfold soft_refresh. apply bd_pure. intros [up k]. apply bd_pure. intros [um k']. apply bd_pure. intros r'.
  apply bd_bind; [apply bd_a_write|]. intros mp'. apply bd_ok.
Qed.
Lemma bd_rd_step c x m n : by_draws (rd_step c x m n).
Proof.
  unfold rd_step. cbv zeta. destruct (mitigation c).
  - apply bd_pure. intros [|]; [|apply bd_ok]. apply bd_pure. intros r. apply bd_pure. intros [mp' r'].
    destruct (check_refresh c r' (n_read x) (n_write x + n_refresh x)) as [need r'']. cbv beta iota. destruct need; [apply bd_soft_refresh|apply bd_ok].
  - apply bd_pure. intros r. apply bd_pure. intros r'. apply bd_pure. intros [|]; [|apply bd_ok].
    apply bd_pure. intros [mp' r'']. apply bd_bind; [apply bd_cell_refresh|]. intros [[mp2 r2] cnt]. apply bd_ok.
  - apply bd_pure. intros [|]; [|apply bd_ok]. apply bd_pure. intros r. apply bd_pure. intros [mp' r']. apply bd_ok.
Qed.

Lemma bd_inv {A} (g : env -> out (A * env)) e1 e2 a e1' : by_draws g -> draws e1 = draws e2 ->
  g e1 = Ok (a, e1') -> exists e2', g e2 = Ok (a, e2') /\ draws e1' = draws e2' /\ histo e2' = histo e2.
Proof.
  intros H D E. specialize (H e1 e2 D). rewrite E in H. unfold match_env in H.
  destruct (g e2) as [[b e2']| | |]; try contradiction. destruct H as (-> & ? & ? & ?). eauto.
Qed.

Lemma xmvm_off c x res vec mat m n l e e2 r x' e' :
  draws e = draws e2 -> xmvm c x res vec mat m n l e = Ok (r, x', e') ->
  exists e2', xmvm (off c) x res vec mat m n l e2 = Ok (r, x', e2') /\ draws e' = draws e2' /\ histo e2' = histo e2.
Proof.
  intros D H. unfold xmvm in *. change (digital_only (off c)) with (digital_only c).
  destruct (digital_only c).
  - apply bind_Ok in H. destruct H as ([r1 mp1] & H1 & H).
    exists e2. change (d_mvm (off c)) with (d_mvm c). rewrite H1. cbn [bind]. inversion H; subst. auto.
  - apply bind_Ok in H. destruct H as ([mp1 e1] & H1 & H).
    apply bind_Ok in H. destruct H as ([[r1 mp2] e3] & H2 & H).
    apply bind_Ok in H. destruct H as (mp3 & H3 & H).
    apply bind_Ok in H. destruct H as ([x2 e4] & H4 & H).
    inversion H; subst. clear H.
    change (c2c_var (off c)) with (c2c_var c). change (read_disturb (off c)) with (read_disturb c).
    change (add_c2c (off c)) with (add_c2c c). change (rd_step (off c)) with (rd_step c).
    assert (B1 : exists f1, (if c2c_var c then add_c2c c (xm (x <| n_mvm := n_mvm x + 1 |> <| n_read := n_read x + 1 |>)) m n e2
        else Ok (xm (x <| n_mvm := n_mvm x + 1 |> <| n_read := n_read x + 1 |>), e2)) = Ok (mp1, f1) /\
        draws e1 = draws f1 /\ histo f1 = histo e2).
    { destruct (c2c_var c).
      - eapply (bd_inv (add_c2c c _ m n)); [apply bd_add_c2c|exact D|exact H1].
      - inversion H1; subst. eauto. }
    destruct B1 as (f1 & E1 & D1 & Hi1). rewrite E1. cbn [bind].
    destruct (un_mvm _ _ _ _ _ _ _ _ _ _ _ H2) as [D2 E2]. rewrite E2. cbn [bind]. rewrite H3. cbn [bind].
    assert (B2 : exists f2, (if read_disturb c then rd_step c (x <| n_mvm := n_mvm x + 1 |> <| n_read := n_read x + 1 |> <| xm := mp3 |>) m n f1
        else Ok ((x <| n_mvm := n_mvm x + 1 |> <| n_read := n_read x + 1 |> <| xm := mp3 |>), f1)) = Ok (x', f2) /\
        draws e' = draws f2 /\ histo f2 = histo f1).
    { destruct (read_disturb c).
      - eapply (bd_inv (rd_step c _ m n)); [apply bd_rd_step| |exact H4]. congruence.
      - inversion H4; subst. exists f1. repeat split. congruence. }
    destruct B2 as (f2 & E3 & D3 & Hi2). rewrite E3. cbn [bind]. exists f2. repeat split; congruence.
Qed.

(** MVMs of a profiled and of an unprofiled crossbar in the same state. *)
Lemma results_unprofiled : forall w1 w2 res vec mat m n l w1' r,
  wcfg w2 = wcfg w1 <| adc_profile := false |> -> wx w2 = wx w1 -> draws (wenv w2) = draws (wenv w1) ->
  step w1 (ExeMvm res vec mat m n l) = Ok (w1', r) ->
  exists w2', step w2 (ExeMvm res vec mat m n l) = Ok (w2', r) /\
    wcfg w2' = wcfg w1' <| adc_profile := false |> /\ wx w2' = wx w1' /\ draws (wenv w2') = draws (wenv w1') /\
    histo (wenv w2') = histo (wenv w2).
Proof.
  intros w1 w2 res vec mat m n l w1' r Hc Hx Hd H. cbn [step] in *. unfold exe_mvm in *. rewrite Hx, Hc.
  change (wcfg w1 <| adc_profile := false |>) with (off (wcfg w1)) in *.
  change (too_big (off (wcfg w1)) m n) with (too_big (wcfg w1) m n).
  destruct (wx w1) as [x|] eqn:Ex.
  2: { inversion H; subst. exists w2. repeat split; auto; congruence. }
  destruct (too_big (wcfg w1) m n).
  { inversion H; subst. exists w2. repeat split; auto; congruence. }
  apply bind_Ok in H. destruct H as ([m' n'] & H1 & H). rewrite H1. cbn [bind].
  apply bind_Ok in H. destruct H as ([[r1 x1] e1] & H2 & H). inversion H; subst. clear H.
  destruct (xmvm_off _ _ _ _ _ _ _ _ _ (wenv w2) _ _ _ (eq_sym Hd) H2) as (e2' & E & D & Hi).
  rewrite E. cbn [bind]. eexists. split; [reflexivity|]. cbn. repeat split; auto.
Qed.
End Hist.

(** ** Exact arithmetic *)
Section HistR.
Context {nz : bool -> nat -> R} {s : bool}.
#[local] Hint Extern 0 Machine => exact (R_machine nz s) : typeclass_instances.
Local Open Scope R_scope.

Lemma near_nonneg x : 0 <= x -> (0 <= ZnearestA x)%Z.
Proof. intros H. pose proof (near_le (IZR 0) x H) as E. now rewrite near_IZR in E. Qed.
Lemma near_upper x k : x <= IZR k -> (ZnearestA x <= k)%Z.
Proof. intros H. pose proof (near_le x (IZR k) H) as E. now rewrite near_IZR in E. Qed.

Definition bins (mn mx b : R) : Z := ZnearestA ((mx - mn) / b).

Lemma mids_R k : forall (n b : R) i, (i < k)%nat -> nth i (mids k n b : list R) 0 = n + INR i * b.
Proof.
  induction k as [|k IH]; intros n b i Hi; [lia|]. destruct i as [|i]; cbn [mids nth].
  - cbn [INR]. ring.
  - cbn [fadd R_machine]. rewrite IH by lia. rewrite S_INR. ring.
Qed.
Lemma mids_length k : forall n b : R, List.length (mids k n b) = k.
Proof. induction k; intros; cbn [mids List.length]; auto. Qed.

Lemma bins_bounds mn mx b : 0 < b -> mn <= mx -> (mx - mn) / b <= IZR (2 ^ 30) -> (0 <= bins mn mx b <= 2 ^ 30)%Z.
Proof.
  intros Hb Hm Hr. unfold bins. split.
  - apply near_nonneg. apply Rmult_le_pos; [lra|]. left. now apply Rinv_0_lt_compat.
  - now apply near_upper.
Qed.

Lemma hist_new_R mn mx b : 0 < b -> mn <= mx -> (mx - mn) / b <= IZR (2 ^ 30) ->
  hist_new (mn : F) mx b = Ok (mkHist (mn : F) mx b (repeat 0%Z (Z.to_nat (bins mn mx b)))
                 (mids (Z.to_nat (bins mn mx b)) (mn + b / 2 : F) b)).
Proof.
  intros Hb Hm Hr. unfold hist_new. cbn [f_trunc fround fdiv fsub R_machine]. rewrite Ztrunc_IZR.
  fold (bins mn mx b). pose proof (bins_bounds mn mx b Hb Hm Hr) as B.
  replace ((0 <=? bins mn mx b) && (bins mn mx b <? 2 ^ 64))%Z with true by lia. reflexivity.
Qed.

Lemma index_R (h : hist) (v : R) : (Z.abs (ZnearestA ((v - h_min h) / h_bin h)) <= 2 ^ 30)%Z ->
  hist_index h v = Ok (ZnearestA ((v - h_min h) / h_bin h)).
Proof.
  intros H. unfold hist_index, f2i. cbn [f_trunc fround fdiv fsub R_machine]. rewrite Ztrunc_IZR.
  unfold in32, int_min, int_max. replace (_ && _) with true by lia. reflexivity.
Qed.

(** A histogram that was created for a range and then updated. *)
Lemma full_scale : forall (mn mx b : R) (h h' : hist) (vs : list R),
  0 < b -> mn <= mx -> (mx - mn) / b <= IZR (2 ^ 30) ->
  hist_new mn mx b = Ok h -> hist_update vs h = Ok h' -> hist_update [mx] h' = UB OutOfBounds.
Proof.
  intros mn mx b h h' vs Hb Hm Hr Hn Hu. rewrite hist_new_R in Hn by auto. inversion Hn; subst h. clear Hn.
  apply hist_update_total in Hu. cbn [h_min h_max h_bin h_data h_vals] in Hu. destruct Hu as (_ & L & E1 & _ & E3 & _).
  rewrite repeat_length in L. unfold hist_update. cbn [mapM].
  pose proof (bins_bounds mn mx b Hb Hm Hr) as B.
  assert (EI : ZnearestA ((mx - h_min h') / h_bin h') = bins mn mx b) by (rewrite E1, E3; reflexivity).
  rewrite index_R by (rewrite EI; lia). rewrite EI. cbn [bind bumps]. unfold bump, getz.
  replace (bins mn mx b <? 0)%Z with false by lia. rewrite get_oob; [reflexivity|]. rewrite L. lia.
Qed.

Lemma label : forall (mn mx b v : R) (h : hist) (i : Z),
  0 < b -> mn <= mx -> (mx - mn) / b <= IZR (2 ^ 30) ->
  hist_new mn mx b = Ok h -> hist_index h v = Ok i -> (0 <= i < Z.of_nat (List.length (h_data h)))%Z ->
  v <= nth (Z.to_nat i) (h_vals h : list R) 0 <= v + b.
Proof.
  intros mn mx b v h i Hb Hm Hr Hn Hi Hlt. rewrite hist_new_R in Hn by auto. inversion Hn; subst h. clear Hn.
  cbn [h_data h_vals] in *. rewrite repeat_length in Hlt.
  pose proof (bins_bounds mn mx b Hb Hm Hr) as B.
  unfold hist_index, f2i in Hi. cbn [f_trunc fround fdiv fsub R_machine h_min h_bin] in Hi. rewrite Ztrunc_IZR in Hi.
  destruct (in32 _); [|discriminate]. inversion Hi; subst i. clear Hi.
  rewrite mids_R by lia. rewrite INR_IZR_INZ, Z2Nat.id by lia.
  pose proof (near_half ((v - mn) / b)) as N. set (k := IZR (ZnearestA ((v - mn) / b))) in *.
  assert (E : v = mn + (v - mn) / b * b) by (field; lra).
  apply Rabs_le_inv in N. set (q := (v - mn) / b) in *. rewrite E. nra.
Qed.
Lemma label_worst : forall (mn mx b : R) (h : hist) (i : Z),
  0 < b -> mn <= mx -> (mx - mn) / b <= IZR (2 ^ 30) ->
  hist_new mn mx b = Ok h -> (0 < i < Z.of_nat (List.length (h_data h)))%Z ->
  hist_index h (mn + (IZR i - / 2) * b) = Ok i /\
  nth (Z.to_nat i) (h_vals h : list R) 0 = (mn + (IZR i - / 2) * b) + b.
Proof.
  intros mn mx b h i Hb Hm Hr Hn Hlt. rewrite hist_new_R in Hn by auto. inversion Hn; subst h. clear Hn.
  cbn [h_data h_vals] in *. rewrite repeat_length in Hlt.
  pose proof (bins_bounds mn mx b Hb Hm Hr) as B.
  assert (E : ZnearestA ((mn + (IZR i - / 2) * b - mn) / b) = i).
  { replace ((mn + (IZR i - / 2) * b - mn) / b) with (IZR i - / 2) by (field; lra).
    apply eq_IZR. rewrite away_eq. unfold round_away.
    assert (1 <= IZR i) by (apply IZR_le; lia). destruct (Rle_dec 0 (IZR i - / 2)); [|lra].
    f_equal. replace (IZR i - / 2 + / 2) with (IZR i) by ring. apply Zfloor_IZR. }
  split.
  - rewrite index_R; cbn [h_min h_bin]; rewrite E; auto; lia.
  - rewrite mids_R by lia. rewrite INR_IZR_INZ, Z2Nat.id by lia. field.
Qed.

(** Values at least one bin below the end of the range. *)
Lemma bumps_ok is : forall d, (forall i, In i is -> (0 <= i < Z.of_nat (List.length d))%Z) ->
  (forall x, In x d -> (0 <= x)%Z) -> (total d + Z.of_nat (List.length is) <= int32_max)%Z ->
  exists d', bumps is d = Ok d'.
Proof.
  induction is as [|i is IH]; intros d Hi Hd Ht; cbn [bumps]; [eauto|].
  assert (Hi0 := Hi i (or_introl eq_refl)). cbn [List.length] in Ht.
  assert (Hx : (0 <= nth (Z.to_nat i) d 0 <= total d)%Z).
  { assert (forall l k, (forall x, In x l -> (0 <= x)%Z) -> (k < List.length l)%nat -> (0 <= nth k l 0 <= total l)%Z) as G.
    { clear. induction l as [|y l IHl]; intros k H Hk; cbn in Hk; [lia|].
      assert (0 <= y)%Z by (apply H; now left).
      assert (T : (0 <= total l)%Z).
      { assert (H' : forall x, In x l -> (0 <= x)%Z) by (intros; apply H; now right). clear - H'.
        induction l as [|z l IHl]; cbn; [lia|]. assert (0 <= z)%Z by (apply H'; now left).
        assert (0 <= total l)%Z by (apply IHl; intros; apply H'; now right). unfold total in *. lia. }
      change (total (y :: l)) with (y + total l)%Z. destruct k as [|k]; cbn [nth]; [lia|].
      specialize (IHl k ltac:(intros; apply H; now right) ltac:(lia)). lia. }
    apply G; auto. lia. }
  unfold bump, getz, setz. replace (i <? 0)%Z with false by lia.
  rewrite (get_ok d _ 0%Z) by lia. cbn [bind]. unfold int32_max in Ht.
  rewrite add32_ok by (unfold int_min, int_max; lia). cbn [bind]. rewrite set_ok by lia. cbn [bind].
  apply IH.
  - intros j Hj. rewrite upd_length. apply Hi. now right.
  - intros x Hin. apply (In_nth _ _ 0%Z) in Hin. destruct Hin as (k & Hk & <-). rewrite upd_length in Hk.
    rewrite nth_upd by lia. destruct (k =? _)%nat; [lia|]. apply Hd. now apply nth_In.
  - rewrite total_upd by lia. unfold int32_max. lia.
Qed.

Lemma in_range_ok : forall (mn mx b : R) (h0 h : hist) (ws vs : list R),
  0 < b -> mn <= mx -> (mx - mn) / b <= IZR (2 ^ 30) ->
  hist_new mn mx b = Ok h0 -> hist_update ws h0 = Ok h ->
  (forall v, In v vs -> mn <= v <= mx - b) ->
  (Z.of_nat (List.length ws) + Z.of_nat (List.length vs) <= int32_max)%Z ->
  exists h', hist_update vs h = Ok h'.
Proof.
  intros mn mx b h0 h ws vs Hb Hm Hr Hn Hu Hv Ht. pose proof (hist_new_total _ _ _ _ Hn) as T0.
  rewrite hist_new_R in Hn by auto. inversion Hn; subst h0. clear Hn.
  pose proof (bins_bounds mn mx b Hb Hm Hr) as B. pose proof Hu as Hu'.
  apply hist_update_total in Hu. cbn [h_min h_max h_bin h_data h_vals] in Hu, T0. destruct Hu as (T & L & E1 & _ & E3 & _).
  rewrite repeat_length in L.
  assert (NN : forall x, In x (h_data h) -> (0 <= x)%Z).
  { unfold hist_update in Hu'. apply bind_Ok in Hu'. destruct Hu' as (is & _ & Hu').
    apply bind_Ok in Hu'. destruct Hu' as (d & Hd & Hu'). inversion Hu'; subst h.
    change (h_data (_ <| h_data := d |>)) with d. cbn [h_data] in Hd. clear - Hd.
    assert (G : forall is d0 d, bumps is d0 = Ok d -> (forall x, In x d0 -> (0 <= x)%Z) -> forall x, In x d -> (0 <= x)%Z).
    { clear. induction is as [|i is IH]; intros d0 d H H0; cbn [bumps] in H; [inversion H; subst; auto|].
      apply bind_Ok in H. destruct H as (d1 & H1 & H). apply (IH d1); auto. intros x Hx.
      unfold bump, getz, setz in H1. destruct (i <? 0)%Z; [discriminate|].
      apply bind_Ok in H1. destruct H1 as (y & Hy & H1). apply bind_Ok in H1. destruct H1 as (z & Hz & H1).
      apply (get_inv _ _ _ 0%Z) in Hy. destruct Hy as [Hi ->]. apply chk32_inv in Hz. destruct Hz as [-> _].
      apply set_inv in H1. destruct H1 as [_ ->]. apply (In_nth _ _ 0%Z) in Hx. destruct Hx as (k & Hk & <-).
      rewrite upd_length in Hk. assert (0 <= nth (Z.to_nat i) d0 0)%Z by (apply H0; now apply nth_In).
      rewrite nth_upd by auto. destruct (k =? _)%nat; [lia|]. apply H0. now apply nth_In. }
    apply (G _ _ _ Hd). intros x Hx. apply repeat_spec in Hx. lia. }
  assert (EI : forall v, In v vs -> (0 <= ZnearestA ((v - h_min h) / h_bin h) < bins mn mx b)%Z).
  { intros v Iv. specialize (Hv v Iv). rewrite E1, E3. split.
    - apply near_nonneg. apply Rmult_le_pos; [lra|]. left. now apply Rinv_0_lt_compat.
    - assert (X : (v - mn) / b <= (mx - mn) / b - 1).
      { apply (Rmult_le_reg_r b); auto. field_simplify; lra. }
      apply Z.lt_le_trans with (ZnearestA ((v - mn) / b) + 1)%Z; [lia|]. unfold bins.
      rewrite Z.add_comm. etransitivity; [|apply near_le; apply Rplus_le_compat_l with (r := 1) in X;
        replace (1 + ((mx - mn) / b - 1)) with ((mx - mn) / b) in X by ring; exact X].
      assert (SH : forall x, 0 <= x -> (1 + ZnearestA x <= ZnearestA (1 + x))%Z).
      { intros x Hx. apply le_IZR. rewrite plus_IZR, !away_eq. unfold round_away.
        destruct (Rle_dec 0 x); [|lra]. destruct (Rle_dec 0 (1 + x)); [|lra]. rewrite <- plus_IZR. apply IZR_le.
        apply Zfloor_lub. rewrite plus_IZR. pose proof (Zfloor_lb (x + / 2)). lra. }
      apply SH. apply Rmult_le_pos; [lra|]. left. now apply Rinv_0_lt_compat. }
  assert (EM : forall l, incl l vs ->
     mapM (hist_index h) l = Ok (map (fun v : R => ZnearestA ((v - h_min h) / h_bin h)) l)).
  { induction l as [|v l IH]; intros Hl; [reflexivity|]. cbn [mapM map].
    assert (Iv := EI v (Hl v (or_introl eq_refl))). rewrite index_R by lia. cbn [bind].
    rewrite IH by (intros z Hz; apply Hl; now right). reflexivity. }
  unfold hist_update. rewrite (EM vs) by apply incl_refl. cbn [bind].
  destruct (bumps_ok (map (fun v : R => ZnearestA ((v - h_min h) / h_bin h)) vs) (h_data h)) as (d & ->).
  - intros i Hi. apply in_map_iff in Hi. destruct Hi as (v & <- & Iv). specialize (EI v Iv). rewrite L. lia.
  - exact NN.
  - rewrite map_length, T, T0, Z.add_0_l. exact Ht.
  - cbn [bind]. eauto.
Qed.
End HistR.

(** ** Reductions *)
Lemma reduce_sum (xs : nat -> Z) t : reduce Z.add xs t = total (map xs (leaves t)).
Proof.
  induction t as [i|a IHa b IHb]; cbn [reduce leaves map].
  - unfold total. cbn. lia.
  - rewrite map_app, IHa, IHb. unfold total. generalize (map xs (leaves a)) (map xs (leaves b)).
    induction l as [|x l IH]; intros l'; cbn; [reflexivity|]. rewrite <- IH. lia.
Qed.
Lemma total_perm l l' : Permutation l l' -> total l = total l'.
Proof. unfold total. induction 1; cbn; lia. Qed.
Lemma samples_any : forall (MC : Machine) (h : hist) t,
  Permutation (leaves t) (seq 0 (S (List.length (h_data h)))) -> hist_samples t h = total (h_data h).
Proof.
  intros MC h t P. unfold hist_samples. rewrite reduce_sum, (total_perm _ _ (Permutation_map _ P)).
  cbn [seq map]. unfold total at 1. cbn [fold_right]. rewrite Z.add_0_l. fold (total (map (fun i => match i with O => 0 | S k => nth k (h_data h) 0 end) (seq 1 (List.length (h_data h))))).
  f_equal. rewrite <- seq_shift, map_map. apply (nth_ext _ _ 0 0).
  - now rewrite map_length, seq_length.
  - intros k Hk. rewrite map_length, seq_length in Hk.
    rewrite (nth_indep _ 0 ((fun x : nat => nth x (h_data h) 0) O)) by now rewrite map_length, seq_length.
    rewrite (map_nth (fun x : nat => nth x (h_data h) 0)). now rewrite seq_nth.
Qed.

Lemma ex47R : exists h, @hist_new (R_machine (fun _ _ => 0%R) false) 0%R 60%R 10%R = Ok h.
Proof. rewrite hist_new_R; [eauto|lra|lra|]. simpl. lra. Qed.
