(** Reports in binary32: C79. *)
From Coq Require Import String List ZArith Bool Arith Lia ZifyBool ZifyNat Permutation.
From RecordUpdate Require Import RecordSet.
From Flocq Require Import Core BinarySingleNaN.
From Verif Require Import Base Lib Machine FloatMachine Json Config Histogram Adc Crossbar Api RSpec Spec ConfigProofs Reach Demo
  LeakProps HistProps HistEx Profile ProfSpec ProfProps ProfEx.
Import ListNotations RecordSetNotations.
Ltac Zify.zify_post_hook ::= idtac.
Local Open Scope Z_scope.
Local Open Scope out_scope.

(** ** A bin that is lost in the rounding of the labels *)
Section G.
Context {MC : Machine}.
Notation len := List.length.
Lemma mids_stuck k v b : fadd v b = v -> mids k v b = repeat v k.
Proof. intros H. induction k as [|k IH]; [reflexivity|]. cbn [mids repeat]. now rewrite H, IH. Qed.
Lemma stuck_f2i k v z : f2i v = Ok z -> mapM f2i (repeat v k) = Ok (repeat z k).
Proof. intros H. induction k as [|k IH]; [reflexivity|]. cbn [mapM repeat]. rewrite H. cbn [bind]. now rewrite IH. Qed.
Lemma stuck_map v : flt v v = false -> forall (q : list Z) k, len q = S k ->
  fold_left (fun m p => map_insert (fst p) (snd p) m) (combine (repeat v (S k)) q) [] = [(v, nth 0 q 0)].
Proof.
  intros H q k L. destruct q as [|d q]; [discriminate|]. cbn [repeat combine fold_left fst snd map_insert nth].
  injection L as L. generalize d. revert q L. induction k as [|k IH]; intros [|e q] L d0; try discriminate; [reflexivity|].
  cbn [repeat combine fold_left fst snd map_insert]. rewrite H. injection L as L. now apply IH.
Qed.

(** All labels coincide with the lower end. *)
Lemma lost mn mx b z i v zl : f_trunc (fround (fdiv (fsub mx mn) b)) = Some z -> 0 < z < 2 ^ 64 ->
  fadd mn (fdiv b (f_of_Z 2)) = mn -> fadd mn b = mn -> flt mn mn = false -> f2i mn = Ok zl ->
  f2i (fround (fdiv (fsub v mn) b)) = Ok i -> 0 < i < z ->
  exists h0 h r, hist_new mn mx b = Ok h0 /\ hist_update [v] h0 = Ok h /\
    hist_report (fun _ => left_tree (len (h_data h))) h = Ok r /\ s_samples r = 1 /\ s_hist r = [(mn, 0)].
Proof.
  intros Hz Bz E1 E2 E3 E4 Ei Bi. unfold hist_new. rewrite Hz. replace (_ && _) with true by lia. rewrite E1.
  rewrite (mids_stuck _ _ _ E2). set (k := Z.to_nat z). eexists.
  assert (L0 : len (repeat 0 k) = k) by apply repeat_length.
  assert (U : hist_update [v] (mkHist mn mx b (repeat 0 k) (repeat mn k)) =
    Ok (mkHist mn mx b (upd (repeat 0 k) (Z.to_nat i) 1) (repeat mn k))).
  { unfold hist_update. cbn [mapM]. unfold hist_index. cbn [h_min h_bin h_data]. rewrite Ei. cbn [bind bumps].
    unfold bump, getz, setz. replace (i <? 0) with false by lia. rewrite (get_ok _ _ 0) by (rewrite L0; lia). cbn [bind].
    replace (nth (Z.to_nat i) (repeat 0 k) 0) with 0.
    2:{ generalize (Z.to_nat i). clear. induction k as [|k IH]; intros [|j]; cbn; auto. }
    rewrite add32_ok by (unfold int_min, int_max; lia). cbn [bind]. rewrite set_ok by (rewrite L0; lia). reflexivity. }
  set (h := mkHist mn mx b (upd (repeat 0 k) (Z.to_nat i) 1) (repeat mn k)) in *.
  assert (Ld : len (h_data h) = k) by (cbn [h h_data]; now rewrite upd_length).
  assert (V : exists f, hist_variance (left_tree (len (h_data h))) (left_tree (len (h_data h))) (left_tree (len (h_data h))) h = Ok f).
  { unfold hist_variance. cbv zeta. change (h_vals h) with (repeat mn k). rewrite (stuck_f2i _ _ _ E4). cbn [bind]. eauto. }
  destruct V as (f & V). exists h. eexists. split; [reflexivity|]. split; [exact U|]. split; [|split].
  - unfold hist_report. rewrite V. cbn [bind]. reflexivity.
  - cbn [s_samples]. rewrite samples_any by (rewrite left_leaves; apply Permutation_refl).
    change (h_data h) with (upd (repeat 0 k) (Z.to_nat i) 1). rewrite total_upd by (rewrite L0; lia).
    replace (total (repeat 0 k)) with 0 by (clear; induction k as [|k IH]; [reflexivity|]; cbn [repeat]; unfold total in *; cbn [fold_right]; lia).
    replace (nth (Z.to_nat i) (repeat 0 k) 0) with 0; [reflexivity|].
    generalize (Z.to_nat i). clear. induction k as [|k IH]; intros [|j]; cbn; auto.
  - cbn [s_hist]. unfold hist_map. change (h_vals h) with (repeat mn k). replace k with (S (Nat.pred k)) at 1 by lia.
    rewrite (stuck_map _ E3 _ (Nat.pred k)) by lia. change (h_data h) with (upd (repeat 0 k) (Z.to_nat i) 1).
    rewrite nth_upd by (rewrite L0; lia). replace (0 =? Z.to_nat i)%nat with false by lia.
    replace (nth 0 (repeat 0 k) 0) with 0 by (destruct k; reflexivity). reflexivity.
Qed.
End G.

Definition big : Z := 2 ^ 25.
Lemma stuck_half : @fadd toy (fz (- big)) (@fdiv toy (fz 1) (@f_of_Z toy 2)) = fz (- big).
Proof.
  refine (@B2SF_inj 24 128 (@fadd toy (fz (- big)) (@fdiv toy (fz 1) (@f_of_Z toy 2))) (fz (- big)) _). vm_compute. reflexivity.
Qed.
Lemma stuck_one : @fadd toy (fz (- big)) (fz 1) = fz (- big).
Proof. refine (@B2SF_inj 24 128 (@fadd toy (fz (- big)) (fz 1)) (fz (- big)) _). vm_compute. reflexivity. Qed.
Lemma lost_sample : exists (mn mx b v : @F toy) h0 h t r, hist_new mn mx b = Ok h0 /\ hist_update [v] h0 = Ok h /\
  schedule_for (List.length (h_data h)) t /\ hist_report t h = Ok r /\ s_samples r = 1 /\ total (map snd (s_hist r)) = 0.
Proof.
  destruct (@lost toy (fz (- big)) (fz big) (fz 1) (2 ^ 26) (2 ^ 25) (fz 0) (- big)) as (h0 & h & r & A & B & C & D & E).
  3: exact stuck_half.
  3: exact stuck_one.
  1-6: try (vm_compute; reflexivity); try (split; vm_compute; reflexivity).
  exists (fz (- big)), (fz big), (fz 1), (fz 0), h0, h, (fun _ => left_tree (List.length (h_data h))), r.
  split; [exact A|]. split; [exact B|]. split; [apply left_schedule|]. split; [exact C|]. split; [exact D|]. rewrite E. reflexivity.
Qed.

(** ** Reports of reachable states *)
Definition huge_doc : @json toy :=
  puts (@ana_doc toy "BNN_III" 2 2 4 4 [] 5 3000000000)
    [("adc_type", JStr "POS_RANGE_ONLY_ADC"); ("resolution", JInt 8); ("adc_profile", JBool true);
     ("adc_profile_bin_size", JInt 100000000)]%string.
Definition huge : list (@call toy) :=
  [SetConfig (Parsed huge_doc); CpyMtrx [1; 1; -1; -1] 2 2; ExeMvm [0; 0] [1; -1] [] 2 2 "L"%string].
Definition empty : list (@call toy) :=
  [SetConfig (Parsed (full_doc 1)); CpyMtrx [1; 1; -1; -1] 2 2; ExeMvm [0; 0] [1; -1] [] 0 2 "L"%string].
Definition left60 (l : string) (k : nat) : rtree := left_tree 60.

Lemma code_f2i {A} (o : out A) : code o = 4 -> o = UB FloatToInt.
Proof. destruct o as [|[]| |]; cbn; intros H; try discriminate; reflexivity. Qed.
Lemma huge_undefined : exists w : @world toy, reach w /\ exists l h, lookup l (histo (wenv w)) = Some h /\
  schedule_for (List.length (h_data h)) (left60 l) /\ 0 < total (h_data h) /\
  profile_report left60 (histo (wenv w)) = UB FloatToInt.
Proof.
  assert (E : runs_settled huge = true /\ code (profile_report left60 (histo (wenv (after huge)))) = 4 /\
    option_map (fun h => (List.length (h_data h), total (h_data h))) (lookup "L"%string (histo (wenv (after huge)))) = Some (60%nat, 4)).
  { vm_compute. auto. }
  destruct E as (E1 & E2 & E3). exists (after huge). split; [now apply after_reach_b|]. exists "L"%string.
  destruct (lookup _ _) as [h|]; [|discriminate]. injection E3 as E3 E4. exists h. split; [reflexivity|]. rewrite E3, E4.
  split; [apply (left_schedule 60)|]. split; [lia|]. now apply code_f2i.
Qed.
Definition nan_mean {MC : Machine} (w : world) : bool :=
  match profile_report left60 (histo (wenv w)) with
  | Ok [(l, r)] => (s_samples r =? 0) && negb (feq (s_mean r) (s_mean r)) && String.eqb l "L"%string
  | _ => false
  end.
Lemma nan_mean_inv {MC : Machine} (w : world) : nan_mean w = true ->
  option_map (fun h => List.length (h_data h)) (lookup "L"%string (histo (wenv w))) = Some 60%nat ->
  exists l h r, lookup l (histo (wenv w)) = Some h /\ schedule_for (List.length (h_data h)) (left60 l) /\
  profile_report left60 (histo (wenv w)) = Ok [(l, r)] /\ s_samples r = 0 /\ feq (s_mean r) (s_mean r) = false.
Proof.
  intros E2 E3. unfold nan_mean in E2. destruct (profile_report _ _) as [q| | |]; try discriminate.
  destruct q as [|[l r] [|]]; try discriminate.
  destruct (s_samples r =? 0) eqn:A; [|discriminate]. destruct (feq (s_mean r) (s_mean r)) eqn:B; [discriminate|].
  cbn [andb negb] in E2. apply String.eqb_eq in E2. subst l.
  destruct (lookup _ _) as [h|] eqn:EL; [|discriminate]. injection E3 as E3. exists "L"%string, h, r. split; [exact EL|]. rewrite E3.
  split; [apply (left_schedule 60)|]. split; [reflexivity|]. split; [lia|exact B].
Qed.
Lemma empty_mean : exists w : @world toy, reach w /\ exists l h r, lookup l (histo (wenv w)) = Some h /\
  schedule_for (List.length (h_data h)) (left60 l) /\
  profile_report left60 (histo (wenv w)) = Ok [(l, r)] /\ s_samples r = 0 /\ feq (s_mean r) (s_mean r) = false.
Proof.
  assert (E : runs_settled empty = true /\ nan_mean (after empty) = true /\
    option_map (fun h => List.length (h_data h)) (lookup "L"%string (histo (wenv (after empty)))) = Some 60%nat).
  { vm_compute. auto. }
  destruct E as (E1 & E2 & E3). exists (after empty). split; [now apply after_reach_b|]. exact (nan_mean_inv _ E2 E3).
Qed.
