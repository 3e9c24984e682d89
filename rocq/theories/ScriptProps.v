(** C13 indexing, C14 compilation, C15 constant folding, C19 independence of paths. *)
From Coq Require Import String ZArith List Bool Lia ZifyBool.
From Coq Require Import Floats.SpecFloat.
From Verif Require Import Base StringModel StringSpec StringProofs ScriptModel ScriptSpec ScriptNum ScriptEval ScriptCompile ScriptMachine ScriptConst ScriptIndex DateModel.
Import ListNotations.
Open Scope Z_scope.

Ltac small := unfold wf_all, fits_all; repeat (match goal with |- Forall _ [] => apply Forall_nil | |- Forall _ (_ :: _) => apply Forall_cons | |- _ /\ _ => split
  | |- True => exact I | |- _ = _ => reflexivity | |- _ <= _ => lia | |- _ < _ => lia | |- _ <> _ => discriminate end; cbn).
Ltac lit_of x := let y := eval vm_compute in x in change x with y.

(** * C13 *)
Section C13.
Context {N : Num}.
Theorem C13_names_in_order : forall events m events', index_events events no_maps = (m, events') ->
  map (map plain_stmt) events' = map (map plain_stmt) events /\
  v_names m = first_names [] (map fst (all_vars events')) /\
  (forall n i, In (n, i) (all_vars events') -> exists n', 0 <= i /\ nth_error (v_names m) (Z.to_nat i) = Some n' /\ same_up_to_case n' n) /\
  (forall j, (j < List.length (v_names m))%nat -> exists n, In (n, Z.of_nat j) (all_vars events')).
Proof.
  intros events m events' H. destruct (index_events_took _ _ _ _ H) as [(T1 & T2 & T3 & T4) P]. split; [exact P|]. split; [|split].
  - rewrite T1, add_names_first. reflexivity.
  - intros n i Hin. destruct (T3 n i Hin) as [Hi Hf]. destruct (find_name_some _ _ _ Hf) as (n' & E & C). exists n'. split; [exact Hi|]. split; [exact E|]. now apply ci_eqb_iff.
  - apply (index_dense _ _ _ H).
Qed.
Theorem C13_same_index_iff_same_name : forall events m events' n i n' i', index_events events no_maps = (m, events') ->
  In (n, i) (all_vars events') -> In (n', i') (all_vars events') -> (i = i' <-> same_up_to_case n n').
Proof.
  intros events m events' n i n' i' H H1 H2. destruct (index_events_took _ _ _ _ H) as [(T1 & T2 & T3 & T4) P].
  destruct (T3 n i H1) as [Hi Hf]. destruct (T3 n' i' H2) as [Hi' Hf']. rewrite <- ci_eqb_iff. split.
  - intros <-. destruct (find_name_some _ _ _ Hf) as (a & E & C). destruct (find_name_some _ _ _ Hf') as (b & E' & C'). assert (a = b) by congruence. subst b.
    apply (ci_eqb_trans n a n'); [now rewrite ci_eq_sym|exact C'].
  - intros Hc. rewrite (find_name_ci _ _ _ Hc) in Hf. rewrite Hf in Hf'. injection Hf' as Hz. lia.
Qed.
(** constants: the table of values holds, at the index of each, its value *)
Theorem C13_constants : forall events m events' n i v, index_events events no_maps = (m, events') -> one_value (all_consts events') ->
  In (n, i, v) (all_consts events') -> exists n', 0 <= i /\ nth_error (c_names m) (Z.to_nat i) = Some (n', v) /\ same_up_to_case n' n.
Proof.
  intros events m events' n i v H O Hin. destruct (index_events_took _ _ _ _ H) as [(T1 & T2 & T3 & T4) P]. destruct (T4 n i v Hin) as [Hi Hf].
  destruct (find_name_some _ _ _ Hf) as (n' & E & C). rewrite nth_error_map in E. destruct (nth_error (c_names m) (Z.to_nat i)) as [[n0 v0]|] eqn:E0; [|discriminate]. injection E as ->.
  exists n'. split; [exact Hi|]. split; [|now apply ci_eqb_iff]. apply nth_error_In in E0. rewrite T2 in E0. apply add_consts_in in E0 as [[]|E0].
  apply in_map_iff in E0 as ([[n1 i1] v1] & E & Hin1). unfold strip in E. cbn in E. injection E as -> ->. rewrite (O n' i1 v0 n i v Hin1 Hin C). reflexivity.
Qed.
(** the payoff read after a simulation is the variable with the payoff's name; failing that, the last variable *)
Theorem C13_payoff : forall events m events' payoff n i, index_events events no_maps = (m, events') ->
  In (n, i) (all_vars events') -> same_up_to_case n payoff -> payoff_index (v_names m) payoff = i.
Proof.
  intros events m events' payoff n i H Hin Hc. destruct (index_events_took _ _ _ _ H) as [(T1 & T2 & T3 & T4) P]. destruct (T3 n i Hin) as [Hi Hf].
  apply ci_eqb_iff in Hc. rewrite (find_name_ci _ _ _ Hc) in Hf. unfold payoff_index. rewrite Hf. lia.
Qed.
(** when no variable has the payoff's name, the last variable to appear in the script is used *)
Theorem C13_payoff_default : forall events m events' payoff, index_events events no_maps = (m, events') ->
  (forall n i, In (n, i) (all_vars events') -> ~ same_up_to_case n payoff) ->
  (forall n i, In (n, i) (all_vars events') -> i <= payoff_index (v_names m) payoff) /\
  (all_vars events' <> [] -> exists n, In (n, payoff_index (v_names m) payoff) (all_vars events')).
Proof.
  intros events m events' payoff H Hno. destruct (C13_names_in_order _ _ _ H) as (_ & Hf & Hin & Hd).
  assert (payoff_index (v_names m) payoff = Z.of_nat (List.length (v_names m)) - 1) as E.
  { unfold payoff_index. destruct (find_name (v_names m) payoff) as [k|] eqn:Ek; [|reflexivity]. exfalso.
    destruct (find_name_some _ _ _ Ek) as (n' & E & C). apply ci_eqb_iff in C.
    assert (k < List.length (v_names m))%nat as Hk by (apply nth_error_Some; congruence).
    destruct (Hd k Hk) as (n & Hn). destruct (Hin _ _ Hn) as (n2 & _ & E2 & C2). rewrite Nat2Z.id in E2. assert (n2 = n') by congruence. subst n2.
    apply (Hno _ _ Hn). apply ci_eqb_iff. apply (ci_eqb_trans n n' payoff); [rewrite ci_eq_sym; now apply ci_eqb_iff|now apply ci_eqb_iff]. }
  rewrite E. split.
  - intros n i Hi. destruct (Hin _ _ Hi) as (n' & H0 & E' & _). assert (Z.to_nat i < List.length (v_names m))%nat by (apply nth_error_Some; congruence). lia.
  - intros Hne. destruct (all_vars events') as [|[n i] r] eqn:Ev; [congruence|]. destruct (Hin n i (or_introl eq_refl)) as (n' & H0 & E' & _).
    assert (Z.to_nat i < List.length (v_names m))%nat by (apply nth_error_Some; congruence).
    destruct (Hd (List.length (v_names m) - 1)%nat ltac:(lia)) as (n0 & Hn0). exists n0. replace (Z.of_nat (List.length (v_names m)) - 1) with (Z.of_nat (List.length (v_names m) - 1)) by lia. exact Hn0.
Qed.
End C13.
Print Assumptions C13_payoff_default.
Print Assumptions C13_names_in_order.
Print Assumptions C13_same_index_iff_same_name.
Print Assumptions C13_constants.
Print Assumptions C13_payoff.

(** * An example product: two IFs, a constant, a path-dependent variable *)
Section Example_.
Local Existing Instance ZNum.
Definition nof : flags := Flags false false.
Definition nofz : fuzz := Fuzz false (-1) 0 0.
Definition var (s : string) : expr := EVar None (lit s) (-1).
Definition lvar (s : string) : lhs := LVar None (lit s) (-1).
Definition sup (e : expr) : cond := CCmp nof Sup nofz e.
Definition ev1 : list stmt := [SAssign (lvar "k") (EConst 100); SAssign (lvar "alive") (EConst 1)].
Definition ev2 : list stmt :=
  [SIf nof [] (sup (EBin None Sub (ESpot None) (EConstVar (lit "BARRIER") (-1) 120) [])) [SAssign (lvar "ALIVE") (EConst 0)] None;
   SIf nof [] (CAnd nof (sup (var "alive")) (sup (EBin None Sub (ESpot None) (var "K") [])))
     [SPays (lvar "pay") (EBin None Mul (EConst 2) (EBin None Sub (ESpot None) (var "k") []) [])] None].
Definition ev3 : list stmt := [SIf nof [] (sup (var "alive")) [SPays (lvar "pay") (EBin None Max (EConst 0) (EBin None Sub (ESpot None) (var "K") []) [])] (Some [SPays (lvar "pay") (EConst 7)])].
Definition prog : index_maps * list (list stmt) := index_events [ev1; ev2; ev3] no_maps.
Definition past1 : list (list stmt) := firstn 1 (snd prog).
Definition fut : list (list stmt) := skipn 1 (snd prog).
Example C13_example : v_names (fst prog) = map lit ["k"; "alive"; "pay"]%string /\ map snd (all_vars (snd prog)) = [0; 1; 1; 1; 0; 2; 0; 1; 2; 0; 2] /\
  c_names (fst prog) = [(lit "BARRIER", 120)] /\ payoff_index (v_names (fst prog)) (lit "PAY") = 2 /\
  payoff_index (v_names (fst prog)) (lit "none") = 2.
Proof. vm_compute. auto. Qed.
End Example_.

(** * C14 *)
Section C14.
Context {N : Num}.
(** For every product (past events, then future events, as indexed trees), every scenario with a sample per event, any
    number of earlier simulations ([s1], [s2]): with the constants found by the constant processor, the compiled streams
    leave the same variables as the tree evaluator, provided no IF is entered with the truth-value stack below its
    start ([low_all], for instance when no IF has an ELSE, or the only one is the last statement of its event). *)
Theorem C14_compiled_is_interpreted : forall consts nvars pasts futures scenario fuel s1 s2,
  laws ->
  Forall (wf_all (Z.of_nat nvars) consts) pasts -> Forall (wf_all (Z.of_nat nvars) consts) futures ->
  Forall (Forall fresh_stmt) pasts -> Forall (Forall fresh_stmt) futures ->
  Forall (fits_all 128) futures -> (List.length futures <= List.length scenario)%nat ->
  Forall (fun evt => low_all 0 (-1) evt <> None) futures ->
  let init := exec_past pasts (repeat n_zero nvars) in
  exists k pasts' k' futures' r1, const_events pasts (known_init nvars) = Ok (k, pasts') /\ const_events futures k = Ok (k', futures') /\
    evaluate consts init scenario futures s1 = Ok r1 /\
    (Forall (fun evt => (List.length (fst (comp_all evt ([], []))) < fuel)%nat) futures' ->
     exists r2, evaluate_compiled 0 fuel init scenario futures' s2 = Ok r2 /\ vars r2 = vars r1).
Proof.
  intros consts nvars pasts futures scenario fuel s1 s2 HL Wp Wf Fp Ff Hfit Hlen Hlow init.
  destruct (compiled_ok 0 consts nvars pasts futures scenario fuel s2 HL ltac:(lia) Wp Wf Fp Ff Hfit Hlen Hlow) as (k & p' & k' & f' & E1 & E2 & E3).
  assert (Hlen2 : List.length init = nvars).
  { unfold init. clear - Wp. unfold exec_past. assert (G : forall env, List.length env = nvars -> List.length (fold_left (fun env evt => exec_all true (Sample n_zero n_zero) evt env) pasts env) = nvars).
    { induction Wp as [|e l He _ IH]; intros env Hv; cbn [fold_left]; [exact Hv|]. apply IH. rewrite (exec_all_length true consts _ (Z.of_nat nvars)); auto. }
    apply G. apply repeat_length. }
  destruct (evaluate_ok consts init scenario futures 128 s1) as (r1 & E & V); [now rewrite Hlen2|exact Hfit|lia|exact Hlen|].
  exists k, p', k', f', r1. split; [exact E1|]. split; [exact E2|]. split; [exact E|]. intros Hfuel. destruct (E3 Hfuel) as (r2 & R & V2). exists r2. split; [exact R|].
  rewrite V2, V. reflexivity.
Qed.
Theorem C14_without_else : forall evt, Forall (fun s => no_else s = true) evt -> low_all 0 (-1) evt <> None.
Proof. intros evt H. apply low_deep; [|lia]. eapply Forall_impl; [|exact H]. cbn. intros s Hs. rewrite (no_else_depth s Hs). lia. Qed.
(** The rule is about the stack only: on a machine that lets the truth-value stack go [depth] elements below its start,
    compiled and interpreted agree for every product whose IFs with ELSE are nested at most [depth] deep. *)
Theorem C14_compiled_with_room_below : forall depth consts nvars pasts futures scenario fuel s1 s2,
  laws -> 0 <= depth ->
  Forall (wf_all (Z.of_nat nvars) consts) pasts -> Forall (wf_all (Z.of_nat nvars) consts) futures ->
  Forall (Forall fresh_stmt) pasts -> Forall (Forall fresh_stmt) futures ->
  Forall (fits_all 128) futures -> (List.length futures <= List.length scenario)%nat ->
  Forall (Forall (fun s => else_depth s <= depth)) futures ->
  let init := exec_past pasts (repeat n_zero nvars) in
  exists k pasts' k' futures' r1, const_events pasts (known_init nvars) = Ok (k, pasts') /\ const_events futures k = Ok (k', futures') /\
    evaluate consts init scenario futures s1 = Ok r1 /\
    (Forall (fun evt => (List.length (fst (comp_all evt ([], []))) < fuel)%nat) futures' ->
     exists r2, evaluate_compiled (- depth) fuel init scenario futures' s2 = Ok r2 /\ vars r2 = vars r1).
Proof.
  intros depth consts nvars pasts futures scenario fuel s1 s2 HL Hdep Wp Wf Fp Ff Hfit Hlen Hlow init.
  assert (Hlow' : Forall (fun evt => low_all (- depth) (-1) evt <> None) futures).
  { eapply Forall_impl; [|exact Hlow]. cbn beta. intros evt He. apply low_deep; [|lia]. eapply Forall_impl; [|exact He]. cbn. intros; lia. }
  destruct (compiled_ok (- depth) consts nvars pasts futures scenario fuel s2 HL ltac:(lia) Wp Wf Fp Ff Hfit Hlen Hlow') as (k & p' & k' & f' & E1 & E2 & E3).
  assert (Hlen2 : List.length init = nvars).
  { unfold init. clear - Wp. unfold exec_past. assert (G : forall env, List.length env = nvars -> List.length (fold_left (fun env evt => exec_all true (Sample n_zero n_zero) evt env) pasts env) = nvars).
    { induction Wp as [|e l He _ IH]; intros env Hv; cbn [fold_left]; [exact Hv|]. apply IH. rewrite (exec_all_length true consts _ (Z.of_nat nvars)); auto. }
    apply G. apply repeat_length. }
  destruct (evaluate_ok consts init scenario futures 128 s1) as (r1 & E & V); [now rewrite Hlen2|exact Hfit|lia|exact Hlen|].
  exists k, p', k', f', r1. split; [exact E1|]. split; [exact E2|]. split; [exact E|]. intros Hfuel. destruct (E3 Hfuel) as (r2 & R & V2). exists r2. split; [exact R|].
  rewrite V2, V. reflexivity.
Qed.
(** Trees that come out of the indexer satisfy the well-formedness asked for above. *)
Theorem C14_indexed_products : forall events m events', index_events events no_maps = (m, events') -> Forall (Forall var_targets) events ->
  one_value (all_consts events') -> Forall (wf_all (Z.of_nat (List.length (v_names m))) (map snd (c_names m))) events'.
Proof. exact index_events_wf. Qed.
End C14.
Print Assumptions C14_compiled_is_interpreted.
Print Assumptions C14_without_else.
Print Assumptions C14_compiled_with_room_below.
Print Assumptions C14_indexed_products.

Section Example14.
Local Existing Instance ZNum.
Lemma Z_laws : laws.
Proof.
  split; intros; cbn [n_add n_mul bin n_ltb ge0_const ge0 ZNum num] in *; try lia; try reflexivity.
  - destruct (x <? y) eqn:E1, (y <? x) eqn:E2; lia.
  - destruct (x <? y) eqn:E1, (y <? x) eqn:E2; lia.
Qed.
Definition samples : list sample := [Sample 130 1; Sample 150 2].
Definition samples2 : list sample := [Sample 110 1; Sample 150 2].
Example C14_example :
  Forall (wf_all 3 [120]) past1 /\ Forall (wf_all 3 [120]) fut /\ Forall (Forall fresh_stmt) past1 /\ Forall (Forall fresh_stmt) fut /\
  Forall (fits_all 128) fut /\ Forall (fun evt => low_all 0 (-1) evt <> None) fut /\ exec_past past1 (repeat 0 3) = [100; 1; 0] /\
  match const_events past1 (known_init 3) with
  | Ok (k, _) =>
      match const_events fut k with
      | Ok (_, f') =>
          (do s <- evaluate_compiled 0 100 [100; 1; 0] samples f' (EState [] empty_stack empty_stack); Ok (vars s)) = Ok [100; 0; 3] /\
          (do s <- evaluate_compiled 0 100 [100; 1; 0] samples2 f' (EState [] empty_stack empty_stack); Ok (vars s)) = Ok [100; 1; 45]
      | _ => False
      end
  | _ => False
  end /\
  (do s <- evaluate [120] [100; 1; 0] samples fut (EState [] empty_stack empty_stack); Ok (vars s)) = Ok [100; 0; 3] /\
  (do s <- evaluate [120] [100; 1; 0] samples2 fut (EState [] empty_stack empty_stack); Ok (vars s)) = Ok [100; 1; 45].
Proof.
  split; [lit_of past1; small|]. split; [lit_of fut; small|]. split; [lit_of past1; small|]. split; [lit_of fut; small|]. split; [lit_of fut; small|].
  split; [lit_of fut; small|]. split; [vm_compute; reflexivity|]. split; [vm_compute; split; reflexivity|]. split; vm_compute; reflexivity.
Qed.
(** An IF with ELSE whose condition holds, followed by another IF in the same event: the evaluator of compiled streams
    writes below the first element of its stack. *)
Definition two_ifs : list stmt := [SIf nof [] (sup (ESpot None)) [] (Some []); SIf nof [] (sup (ESpot None)) [SAssign (LVar None (lit "x") 0) (EConst 1)] None].
Theorem C14_if_else_refuted : exists (evt : list stmt) (smp : sample), Forall (wf_stmt 1 []) evt /\ Forall fresh_stmt evt /\ fits_all 128 evt /\
  forall s, (do r <- evaluate [] [0] [smp] [evt] s; Ok (vars r)) = Ok [1] /\ evaluate_compiled 0 20 [0] [smp] [evt] s = UB.
Proof.
  exists two_ifs, (@Sample ZNum 1 1). split; [unfold two_ifs; cbn; small|]. split; [unfold two_ifs; cbn; small|].
  split; [unfold two_ifs; cbn; small|]. intros s. split; vm_compute; reflexivity.
Qed.
End Example14.
Print Assumptions C14_if_else_refuted.

(** In binary64 arithmetic two of the laws fail, and with them the equality. *)
Section Float14.
Local Existing Instance FNum.
Definition run_both (evt : list stmt) (scen : list sample) : outcome (list num) * outcome (list num) :=
  (do s <- evaluate [] [f_zero] scen [evt] (EState [] empty_stack empty_stack); Ok (vars s),
   do p <- const_events [evt] (known_init 1);
   do s <- evaluate_compiled 0 50 [f_zero] scen (snd p) (EState [] empty_stack empty_stack); Ok (vars s)).
Definition f_nof : flags := Flags false false.
Definition f_nofz : fuzz := Fuzz false f_zero f_zero f_zero.
Definition max_event : list stmt := [SAssign (LVar None (lit "x") 0) (EBin None Max (EConst (fl_of_Z 1)) (EUn None Sqrt (ESpot None)) [])].
Definition ge_event : list stmt :=
  [SIf f_nof [] (CCmp f_nof SupEqual f_nofz (EConst (SFopp (SFdiv prec emax f_eps (fl_of_Z 2))))) [SAssign (LVar None (lit "x") 0) (EConst (fl_of_Z 1))] None].
Definition f_market (spot_ : Z) : list sample := [Sample (fl_of_Z spot_) (fl_of_Z 1)].
(** x = MAX(1, SQRT(SPOT())) on a negative spot: 1 interpreted, NaN compiled. *)
Theorem C14_max_refuted : exists evt scen, Forall (wf_stmt 1 []) evt /\ Forall fresh_stmt evt /\
  run_both evt scen = (Ok [fl_of_Z 1], Ok [S754_nan]).
Proof.
  exists max_event, (f_market (-1)). unfold max_event. split; [small|]. split; [small|]. vm_compute. reflexivity.
Qed.
(** IF -1e-14 >= 0 THEN x = 1 ENDIF (as the difference of two constants): not taken interpreted, taken compiled. *)
Theorem C14_tolerance_refuted : exists evt scen, Forall (wf_stmt 1 []) evt /\ Forall fresh_stmt evt /\
  run_both evt scen = (Ok [f_zero], Ok [fl_of_Z 1]).
Proof.
  exists ge_event, (f_market 1). unfold ge_event. split; [small|]. split; [small|]. vm_compute. reflexivity.
Qed.
End Float14.
Print Assumptions C14_max_refuted.
Print Assumptions C14_tolerance_refuted.

(** * C15 *)
Section C15.
Context {N : Num}.
(** The constant processor runs over past and future events without failing, changes nothing in the trees but the
    marks, and every mark met during an execution, in any scenario, is the value of the marked expression there. *)
Theorem C15_marks_are_right : forall consts nvars pasts futures scenario,
  Forall (wf_all (Z.of_nat nvars) consts) pasts -> Forall (wf_all (Z.of_nat nvars) consts) futures ->
  Forall (Forall fresh_stmt) pasts -> Forall (Forall fresh_stmt) futures ->
  exists k pasts' k' futures', const_events pasts (known_init nvars) = Ok (k, pasts') /\ const_events futures k = Ok (k', futures') /\
    map (map bare_stmt) pasts' = map (map bare_stmt) pasts /\ map (map bare_stmt) futures' = map (map bare_stmt) futures /\
    marks_events futures' scenario (exec_past pasts (repeat n_zero nvars)) /\
    exec_events futures' scenario (exec_past pasts' (repeat n_zero nvars)) = exec_events futures scenario (exec_past pasts (repeat n_zero nvars)).
Proof.
  intros consts nvars pasts futures scenario Wp Wf Fp Ff.
  destruct (const_events_ok (Z.of_nat nvars) consts pasts (known_init nvars)) as (k & p' & E1 & B1 & L1 & M1); [unfold zlen, known_init; now rewrite repeat_length|assumption|].
  destruct (const_events_ok (Z.of_nat nvars) consts futures k L1 Wf) as (k' & f' & E2 & B2 & L2 & M2).
  assert (Ex : exec_past p' (repeat n_zero nvars) = exec_past pasts (repeat n_zero nvars)) by (rewrite <- (bare_exec_past p'), B1; apply bare_exec_past).
  destruct (M1 Fp _ (agrees_init nvars)) as [A1 _]. rewrite Ex in A1. destruct (M2 Ff _ A1) as [_ Q].
  exists k, p', k', f'. split; [exact E1|]. split; [exact E2|]. split; [exact B1|]. split; [exact B2|]. split; [apply Q|].
  rewrite Ex, <- (bare_exec_events f'), B2. apply bare_exec_events.
Qed.
(** A variable the processor still believes constant after some events has that value after them, in any scenario. *)
Theorem C15_known_variables : forall consts nvars evts k evts', Forall (wf_all (Z.of_nat nvars) consts) evts -> Forall (Forall fresh_stmt) evts ->
  const_events evts (known_init nvars) = Ok (k, evts') ->
  forall i v, nth_error k i = Some (Some v) -> nth_error (exec_past evts (repeat n_zero nvars)) i = Some v.
Proof.
  intros consts nvars evts k evts' W F H i v Hi.
  destruct (const_events_ok (Z.of_nat nvars) consts evts (known_init nvars)) as (k1 & e1 & E1 & B1 & L1 & M1); [unfold zlen, known_init; now rewrite repeat_length|assumption|].
  rewrite H in E1. injection E1 as <- <-. destruct (M1 F _ (agrees_init nvars)) as [A _].
  rewrite <- (bare_exec_past evts'), B1, bare_exec_past in A.
  revert i Hi. clear - A. induction A as [|a x k env Ha _ IH]; intros [|i] Hi; cbn [nth_error] in *; try discriminate; [|now apply IH].
  injection Hi as ->. cbn in Ha. now subst.
Qed.
End C15.
Print Assumptions C15_marks_are_right.
Print Assumptions C15_known_variables.
Section Example15.
Local Existing Instance ZNum.
Example C15_example : match const_events (past1 ++ fut) (known_init 3) with
  | Ok (k, _) => k = [Some 100; None; None]
  | _ => False end /\ match const_events past1 (known_init 3) with Ok (k, _) => k = [Some 100; Some 1; Some 0] | _ => False end.
Proof. vm_compute. split; reflexivity. Qed.
End Example15.

(** * C19 *)
Section C19.
Context {N : Num}.
(** The evaluator (its state is whatever the earlier paths left in it) gives on each path the values that depend only on
    the path, for the tree evaluator and for compiled streams. *)
Theorem C19_paths_are_independent : forall consts init events dmax scenario s,
  Forall (wf_all (Z.of_nat (List.length init)) consts) events -> Forall (fits_all dmax) events -> dmax <= 128 -> (List.length events <= List.length scenario)%nat ->
  exists r, evaluate consts init scenario events s = Ok r /\ vars r = exec_events events scenario init.
Proof. intros consts init events dmax scenario s W F D L. exact (evaluate_ok consts init scenario events dmax s W F D L). Qed.
(** so a whole simulation gives, path by path, what each path alone gives *)
Fixpoint simulate (consts init : list num) (events : list (list stmt)) (paths : list (list sample)) (s : estate) : outcome (list (list num)) :=
  match paths with
  | [] => Ok []
  | p :: r => do s1 <- evaluate consts init p events s; do rest <- simulate consts init events r s1; Ok (vars s1 :: rest)
  end.
Theorem C19_simulation : forall consts init events dmax paths s,
  Forall (wf_all (Z.of_nat (List.length init)) consts) events -> Forall (fits_all dmax) events -> dmax <= 128 ->
  Forall (fun p => (List.length events <= List.length p)%nat) paths ->
  simulate consts init events paths s = Ok (map (fun p => exec_events events p init) paths).
Proof.
  intros consts init events dmax paths s W F D. revert s. induction paths as [|p r IH]; intros s L; cbn [simulate map]; [reflexivity|].
  apply Forall_cons_iff in L as [L1 L2]. destruct (evaluate_ok consts init p events dmax s W F D L1) as (s1 & -> & V). cbn [obind]. rewrite IH by assumption. cbn [obind]. now rewrite V.
Qed.
(** Past events: run once on zeros; each past payment leaves one number on the evaluator's stack, so the past must not
    contain more than 128 - [dmax] payments. *)
Theorem C19_past : forall consts nvars events dmax, Forall (wf_all (Z.of_nat nvars) consts) events -> Forall (fits_all dmax) events ->
  payments_events events + dmax <= 128 -> past_evaluate consts nvars events = Ok (exec_past events (repeat n_zero nvars)).
Proof. exact past_evaluate_ok. Qed.
Theorem C19_past_payments_refuted : exists events : list (list stmt), Forall (wf_all 1 []) events /\ Forall (fits_all 1) events /\
  past_evaluate [] 1 events = UB /\ past_evaluate [] 1 (tl events) = Ok [n_zero].
Proof.
  exists (repeat [SPays (LVar None (lit "x") 0) (EConst n_zero)] 129). split; [|split; [|split]].
  - apply Forall_forall. intros x Hx. apply repeat_spec in Hx. subst x. repeat constructor; cbn; lia.
  - apply Forall_forall. intros x Hx. apply repeat_spec in Hx. subst x. repeat constructor; cbn; lia.
  - vm_compute. reflexivity.
  - vm_compute. reflexivity.
Qed.
End C19.
Print Assumptions C19_paths_are_independent.
Print Assumptions C19_simulation.
Print Assumptions C19_past.
Print Assumptions C19_past_payments_refuted.
Section Example19.
Local Existing Instance ZNum.
Example C19_example : simulate [120] [100; 1; 0] fut [samples; samples2; samples] (EState [7] empty_stack empty_stack) = Ok [[100; 0; 3]; [100; 1; 45]; [100; 0; 3]] /\
  Forall (fits_all 3) fut.
Proof. split; [vm_compute; reflexivity|]. lit_of fut. small. Qed.
End Example19.
