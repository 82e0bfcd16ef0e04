(** Examples for C60. *)
From Coq Require Import String List ZArith Bool Lia.
From Verif Require Import Base Lib Machine FloatMachine Json Config Mapper Crossbar Api ConfigProofs Reach Spec DocSpec Demo LeakProps ThrowUpd.
Import ListNotations.
Local Open Scope Z_scope.
Local Open Scope string_scope.

Definition doc60 (mode : string) (split : list Z) : @json toy := ana_doc mode 2 2 4 4 split 5 30.
(** Four rows and a mode for which the wire model is missing. *)
Definition items60 : list (string * @json toy) := [("M", JInt 4); ("m_mode", JStr "I_TC_W_DIFF"); ("I_BIT", JInt 4); ("W_BIT", JInt 4);
  ("SPLIT", JArr [JInt 2; JInt 2]); ("parasitics", JBool true); ("V_read", JInt (-1)); ("w_res", JInt 1)].
Definition tall60 : @call toy := CpyMtrx [1; 1; 1; 1; 1; 1; 1; 1] 4 2.
Definition w60 : @world toy := after [SetConfig (Parsed (doc60 "I_DIFF_W_DIFF_1XB" [2; 2]))].
Definition hyps60_of (w : @world toy) : Prop := exists x w',
  reach w /\ wx w = Some x /\ NoDup (map fst items60) /\ step w (UpdateConfig (UJson (JObj items60))) = Ok (w', RExc) /\
  stores_sums (m_mode (wcfg w)) = true /\ M (wcfg w) < 4 /\ par (xm x) = None /\ dims_in (wcfg w') 4 2.
Definition par_of (w : @world toy) : bool := match wx w with Some x => match par (xm x) with None => true | _ => false end | None => false end.
Definition dims_b (c : @config toy) : bool := ((4 <=? M c) && (2 <=? N c))%Z.
Definition exc_b (r : @result toy) : bool := match r with RExc => true | _ => false end.
Lemma hyps60_b (w : @world toy) : reach w -> has_xbar w = true ->
  (match step w (UpdateConfig (UJson (JObj items60))) with Ok (v, r) => exc_b r && dims_b (wcfg v) | _ => false end) = true ->
  stores_sums (m_mode (wcfg w)) = true -> (M (wcfg w) <? 4)%Z = true -> par_of w = true -> hyps60_of w.
Proof.
  intros R X E S L P. apply has_xbar_some in X. unfold par_of in P. destruct (wx w) as [x|] eqn:Hx; [|easy].
  destruct (step w (UpdateConfig (UJson (JObj items60)))) as [[w' r]| | |] eqn:T; try discriminate E.
  apply andb_prop in E. destruct E as [E D]. apply andb_prop in D. destruct D as [D1 D2]. apply Z.leb_le in D1, D2.
  destruct r; try discriminate E. exists x, w'. split; [exact R|]. split; [exact Hx|]. split.
  { cbn. repeat (apply NoDup_cons; [cbn; intuition discriminate|]). apply NoDup_nil. }
  split; [exact T|]. split; [exact S|]. split; [now apply Z.ltb_lt|]. split; [|unfold dims_in; lia]. destruct (par (xm x)); [discriminate P|reflexivity].
Qed.
Lemma ex60 : hyps60_of w60.
Proof. apply hyps60_b; [apply after_reach_b|..]; vm_compute; reflexivity. Qed.
Definition try60 (j : @json toy) : list Z :=
  let h := [SetConfig (Parsed j)] in
  let u := UpdateConfig (UJson (JObj items60)) in
  [match step (after h) u with Ok (_, r) => if exc_b r then 1 else 0 | _ => -1 end;
   code (step (next (after h) [u]) (CpyMtrx [1; 1; 1; 1] 2 2)); code (step (next (after h) [u]) tall60)].
Definition wires60 (j : @json toy) : @json toy := puts j [("parasitics", JBool true); ("V_read", JInt (-1)); ("w_res", JInt 1)].
Lemma ex60_modes :
  map (fun m => try60 (doc60 m [2; 2])) ["I_DIFF_W_DIFF_1XB"; "I_DIFF_W_DIFF_2XB"; "I_UINT_W_DIFF"; "I_TC_W_DIFF"; "BNN_VI"; "TNN_I"] = repeat [1; 5; 1] 6 /\
  map (fun m => try60 (wires60 (doc60 m [2; 2]))) ["I_DIFF_W_DIFF_1XB"; "I_DIFF_W_DIFF_2XB"; "I_UINT_W_DIFF"; "I_OFFS_W_DIFF"] = repeat [1; 0; 1] 4.
Proof. vm_compute. auto. Qed.
