(** C70: the sensitivities a simulation reports. *)
From Coq Require Import String Reals ZArith List Bool Lia Lra Permutation.
From Verif Require Import Base Vec StringModel AadModel AadSpec AadRealSpec AadReal AadProps DomainSpec FuzzyModel FuzzyProps SimModel ValueSpec RiskModel RiskHom RiskSpec RiskProofs ScriptModel.
Import ListNotations.
Open Scope R_scope.

Section C70.
Variables ncdf erfc : R -> R.
(** All tasks, on any threads in any order: where the tape is faithful to the evaluation of the script (each number recorded is the one computed, no
    operation at a kink, comparisons that do not change with the input) and no adjoint was dropped, what is reported for an input is the
    derivative of the average of the payoffs with respect to it. *)
Theorem C70_risks : forall (BN BD : nat) (x : nat -> R) (m at_ : nat) (defEps : R) (init : list R) (events : list (list (@stmt RN))) (rows : nat) (consts : list sym)
    (draw : Z -> path) (n_paths : Z) (pool : nat) (order : list (nat * nat)) (ts : list (Z * Z)) (pre : nat -> list (AadModel.stmt R)) (l : nat -> list (list (AadModel.stmt R) * nat)),
  (0 < BN)%nat -> (0 < BD)%nat -> tasks n_paths (Z.of_nat (num_threads pool)) = Ok ts -> any_schedule pool (List.length ts) order ->
  let paths k := map draw (paths_of (nth k ts (0, 0)%Z)) in
  let sum_of k y := payoffs at_ (real_task ncdf erfc defEps init events rows consts y (paths k)) in
  (forall k, (k < List.length ts)%nat -> starts_with_inputs m (pre k) (l k) /\ proper ncdf erfc BD x (pre k) (l k) /\
     (exists traces, sym_task ncdf erfc defEps init events rows consts (less_at ncdf erfc x) (paths k) = Ok traces /\ recorded ncdf erfc at_ traces (pre k) (l k)) /\
     forall i, (i < m)%nat -> steady ncdf erfc x i (fun T => sym_task ncdf erfc defEps init events rows consts T (paths k))) ->
  exists ns t, (forall k, (k < List.length ts)%nat -> r_path_gradient ncdf erfc BN BD x (pre k) (l k) = Ok (ns k, t k)) /\
    ((forall k, (k < List.length ts)%nat -> dropped (t k) = false) ->
     exists adj, (forall k, (k < List.length ts)%nat -> task_adjoints (Ok (ns k, t k)) m = Ok (adj k)) /\
     exists risks, @total_risks RN m (IZR n_paths) adj pool order = Ok risks /\ List.length risks = m /\
       forall i, (i < m)%nat -> derivable_pt_lim (fun y => fold_right Rplus 0 (map (fun k => sum_of k (with_input x i y)) (seq 0 (List.length ts))) / IZR n_paths) (x i) (nth i risks 0)).
Proof.
  intros BN BD x m at_ defEps init events rows consts draw n_paths pool order ts pre l HN HD Ht Ho paths sum_of H.
  assert (forall k, exists p, (k < List.length ts)%nat -> r_path_gradient ncdf erfc BN BD x (pre k) (l k) = Ok p /\ (dropped (snd p) = false ->
    exists adj, task_adjoints (r_path_gradient ncdf erfc BN BD x (pre k) (l k)) m = Ok adj /\ List.length adj = m /\
      forall i, (i < m)%nat -> derivable_pt_lim (fun y => sum_of k (with_input x i y)) (x i) (nth i adj 0))) as H1.
  { intros k. destruct (Nat.lt_ge_cases k (List.length ts)) as [Hk|Hk]; [|exists ([], @new_tape R 0 BN BD); lia]. destruct (H k Hk) as (S1 & S2 & (tr & S3 & S4) & S5).
    destruct (task_ok ncdf erfc BN BD x m at_ defEps init events rows consts HN HD (paths k) tr (pre k) (l k) S3 S4 S2 S1 S5) as (ns & t & E & A). exists (ns, t). intros _. split; [exact E|exact A]. }
  assert (forall n, exists f : nat -> list (number R) * tape R, forall k, (k < n)%nat -> (k < List.length ts)%nat -> r_path_gradient ncdf erfc BN BD x (pre k) (l k) = Ok (f k) /\ (dropped (snd (f k)) = false ->
    exists adj, task_adjoints (r_path_gradient ncdf erfc BN BD x (pre k) (l k)) m = Ok adj /\ List.length adj = m /\
      forall i, (i < m)%nat -> derivable_pt_lim (fun y => sum_of k (with_input x i y)) (x i) (nth i adj 0))) as H2.
  { induction n as [|n (f & IH)]; [exists (fun _ => ([], @new_tape R 0 BN BD)); intros; lia|]. destruct (H1 n) as (p & Hp). exists (fun k => if Nat.eqb k n then p else f k). intros k Hk. destruct (Nat.eqb_spec k n) as [->|Hn]; [exact Hp|]. apply IH. lia. }
  destruct (H2 (List.length ts)) as (f & Hf). exists (fun k => fst (f k)), (fun k => snd (f k)).
  split; [intros k Hk; rewrite <- surjective_pairing; now apply Hf|]. intros Hd.
  assert (forall n, exists adj : nat -> list R, forall k, (k < n)%nat -> (k < List.length ts)%nat -> task_adjoints (Ok (f k)) m = Ok (adj k) /\ List.length (adj k) = m /\
      forall i, (i < m)%nat -> derivable_pt_lim (fun y => sum_of k (with_input x i y)) (x i) (nth i (adj k) 0)) as H3.
  { induction n as [|n (g & IH)]; [exists (fun _ => []); intros; lia|]. destruct (Nat.lt_ge_cases n (List.length ts)) as [Hn|Hn]; [|exists g; intros k K1 K2; apply IH; lia].
    destruct (Hf n Hn Hn) as [E A]. destruct (A (Hd n Hn)) as (a & A1 & A2). rewrite E in A1. exists (fun k => if Nat.eqb k n then a else g k). intros k Hk. destruct (Nat.eqb_spec k n) as [->|Hne]; [intros _; tauto|]. apply IH. lia. }
  destruct (H3 (List.length ts)) as (adj & Ha). exists adj. split; [intros k Hk; rewrite <- surjective_pairing; now apply Ha|].
  destruct (total_ok ncdf erfc (IZR n_paths) m adj pool order (List.length ts) Ho) as (risks & Er & Lr & Pr); [intros k Hk; now apply Ha|]. exists risks. split; [exact Er|]. split; [exact Lr|].
  intros i Hi. rewrite Pr by exact Hi.
  assert (derivable_pt_lim (fun y => fold_right Rplus 0 (map (fun k => sum_of k (with_input x i y)) (seq 0 (List.length ts)))) (x i) (fold_right Rplus 0 (map (fun k => nth i (adj k) 0) (seq 0 (List.length ts))))) as Hs.
  { apply (sum_derive (fun k y => sum_of k (with_input x i y)) (fun k => nth i (adj k) 0)). intros k Hk. apply in_seq in Hk. now apply Ha. }
  apply (derivable_pt_lim_ext (fun y => / IZR n_paths * fold_right Rplus 0 (map (fun k => sum_of k (with_input x i y)) (seq 0 (List.length ts))))); [intros y; unfold Rdiv; ring|].
  unfold Rdiv. rewrite Rmult_comm. apply (derivable_pt_lim_scal (fun y => fold_right Rplus 0 (map (fun k => sum_of k (with_input x i y)) (seq 0 (List.length ts))))). exact Hs.
Qed.
(** The evaluation does not change near inputs where the comparisons that decide it are not ties. *)
Theorem C70_no_ties : forall (x : nat -> R) (i : nat) (l : list (sym * sym)) run,
  Forall (clear_at ncdf erfc x) l -> decided_by ncdf erfc x l run -> steady ncdf erfc x i run.
Proof. apply decided_steady. Qed.
(** The evaluation the traces stand for is the evaluation of the script over the real numbers. *)
Theorem C70_traces : forall defEps init events rows consts x ps,
  match sym_task ncdf erfc defEps init events rows consts (less_at ncdf erfc x) ps, real_task ncdf erfc defEps init events rows consts x ps with
  | Ok traces, Ok values => map (map (den ncdf erfc x)) traces = values
  | Throw, Throw | UB, UB | OutOfFuel, OutOfFuel => True
  | _, _ => False
  end.
Proof. intros. apply real_sym. Qed.
End C70.
Print Assumptions C70_risks.
Print Assumptions C70_no_ties.
Print Assumptions C70_traces.

(** * Names *)
Section Names.
Context {N : Num}.
(** Where the names of the parameters and constants are different, each is reported with its own risk. *)
Theorem C70_names : forall (names : list str) (risks : list num), List.length risks = List.length names ->
  (forall i j a b, nth_error names i = Some a -> nth_error names j = Some b -> StringSpec.same_up_to_case a b -> i = j) ->
  report names risks names = Ok (combine names risks).
Proof.
  intros names risks Hl Hd.
  assert (forall l k n, (forall i a, nth_error l i = Some a -> ci_eqb a n = false) -> place_of l k n = None) as Hnone.
  { induction l as [|y l IH]; intros k n H; cbn [place_of]; [reflexivity|]. rewrite IH by (intros i a Ha; exact (H (S i) a Ha)). now rewrite (H O y eq_refl). }
  assert (forall n, ci_eqb n n = true) as Hrefl by (intros n; unfold ci_eqb; now rewrite StringProofs.ci_compare_refl).
  assert (forall l k j n, nth_error l j = Some n -> (forall i a, nth_error l i = Some a -> ci_eqb a n = true -> i = j) -> place_of l k n = Some (k + j)%nat) as Hplace.
  { induction l as [|y l IH]; intros k j n Hn Hu; [destruct j; discriminate|]. cbn [place_of]. destruct j as [|j].
    - injection Hn as ->. rewrite Hnone; [rewrite Hrefl; f_equal; lia|]. intros i a Ha. destruct (ci_eqb a n) eqn:E; [|reflexivity]. specialize (Hu (S i) a Ha E). discriminate.
    - rewrite (IH (S k) j n Hn); [f_equal; lia|]. intros i a Ha E. specialize (Hu (S i) a Ha E). now injection Hu. }
  assert (forall j n, nth_error names j = Some n -> exists v, nth_error risks j = Some v /\ result_of names risks n = Ok v) as Hres.
  { intros j n Hn. assert (j < List.length names)%nat as Hj by (apply nth_error_Some; congruence). destruct (nth_error risks j) as [v|] eqn:Ev; [|apply nth_error_None in Ev; lia].
    exists v. split; [reflexivity|]. unfold result_of. rewrite (Hplace names 0%nat j n Hn); [cbn [Nat.add]; unfold get; now rewrite Ev|]. intros i a Ha E. apply (Hd i j a n Ha Hn). now apply StringProofs.ci_eqb_iff. }
  assert (forall done rest rs, names = done ++ rest -> (exists rd, risks = rd ++ rs /\ List.length rd = List.length done) -> report names risks rest = Ok (combine rest rs)) as G.
  { intros done rest. revert done. induction rest as [|n rest IH]; intros done rs En (rd & Er & Lr); [reflexivity|]. cbn [report].
    destruct (Hres (List.length done) n) as (v & Ev & Rv); [rewrite En, nth_error_app2, Nat.sub_diag by lia; reflexivity|]. rewrite Rv. cbn [obind].
    rewrite Er, nth_error_app2, Lr, Nat.sub_diag in Ev by lia. destruct rs as [|w rs]; [discriminate|]. injection Ev as ->.
    rewrite (IH (done ++ [n]) rs); [reflexivity|now rewrite <- app_assoc|]. exists (rd ++ [v]). rewrite <- app_assoc, !app_length, Lr. split; [exact Er|reflexivity]. }
  apply (G [] names risks); [reflexivity|]. exists []. split; reflexivity.
Qed.
End Names.
Print Assumptions C70_names.
Example C70_names_example : @report ScriptNum.ZNum [lit "spot"; lit "vol"; lit "STRIKE"] [5; 7; 9]%Z [lit "spot"; lit "vol"; lit "STRIKE"] = Ok [(lit "spot", 5); (lit "vol", 7); (lit "STRIKE", 9)]%Z.
Proof. reflexivity. Qed.
(** Finding: a constant variable called like a parameter of the model takes its place: the sensitivity to the volatility is reported as 9, that of the
    constant, under both names. *)
Theorem C70_same_name_refuted : @report ScriptNum.ZNum [lit "spot"; lit "vol"; lit "VOL"] [5; 7; 9]%Z [lit "spot"; lit "vol"; lit "VOL"] = Ok [(lit "spot", 5); (lit "vol", 9); (lit "VOL", 9)]%Z.
Proof. reflexivity. Qed.
Print Assumptions C70_same_name_refuted.

(** * An option with a strike that is a constant variable: IF SPOT() > K THEN X = SPOT() - K END.  Input 0 is the spot on the path, input 1 the
    strike. *)
Section Example70.
Definition x_at : nat -> R := fun i => match i with O => 110 | _ => 100 end.
Definition call_script : list (list (@stmt RN)) :=
  [[SIf (Flags false false) [0%Z] (CCmp (Flags false false) Sup (@Fuzz RN false (-1) 0 0) (EBin None Sub (ESpot None) (@EConstVar RN (lit "K") 0 100) []))
      [SAssign (LVar None (lit "X") 0) (EBin None Sub (ESpot None) (@EConstVar RN (lit "K") 0 100) [])] None]].
Definition call_consts : list sym := [SIn 1].
Definition call_path (k : Z) : path := [(SIn 0, SCon 1)].
Definition call_tests : list (sym * sym) :=
  [(SCon (-1), SCon 0); (SBin OPSub (SIn 0) (SIn 1), SCon (0 - 1 / 2 * (1 / 100))); (SCon (1 / 2 * (1 / 100)), SBin OPSub (SIn 0) (SIn 1)); (SCon (1 - r_eps), SCon 1)].
Definition call_task (T : sym -> sym -> bool) := sym_task (fun _ => 0) (fun _ => 0) (1 / 100) [0] call_script 1 call_consts T [call_path 0].
Lemma obind_ok {A B} (m : outcome A) (k : A -> outcome B) a r : m = Ok a -> k a = r -> obind m k = r.
Proof. now intros ->. Qed.
Lemma call_trace T : Forall (fun p => T (fst p) (snd p) = less_at (fun _ => 0) (fun _ => 0) x_at (fst p) (snd p)) call_tests -> call_task T = Ok [[SBin OPSub (SIn 0) (SIn 1)]].
Proof.
  intros H. unfold call_tests in H. rewrite !Forall_cons_iff in H. destruct H as (H1 & H2 & H3 & H4 & _). cbn [fst snd] in *.
  assert (0 < r_eps < 1) as He by (unfold r_eps; lra). unfold less_at, rltb in *. cbn [den r_beval x_at] in *.
  destruct (Rlt_dec (-1) 0) as [_|]; [|lra]. destruct (Rlt_dec (110 - 100) _) as [|_]; [lra|]. destruct (Rlt_dec _ (110 - 100)) as [_|]; [|lra]. destruct (Rlt_dec (1 - _) 1) as [_|]; [|lra].
  pose (N := SymNum (fun _ => 0) (fun _ => 0) T). pose (F := SymFuzzy (fun _ => 0) (fun _ => 0) T).
  assert (@degree_cmp N F (SCon (1 / 100)) Sup (@Fuzz N false (SCon (-1)) (SCon 0) (SCon 0)) (SBin OPSub (SIn 0) (SIn 1)) = SCon 1) as HD.
  { unfold degree_cmp, cspr. cbv zeta. cbn [isDiscrete eps]. change (@n_ltb N) with T. change (@n_zero N) with (SCon 0). rewrite H1.
    change (@n_mul N n_half (SCon (1 / 100))) with (SCon (1 / 2 * (1 / 100))). change (@n_neg N (SCon (1 / 2 * (1 / 100)))) with (SCon (0 - 1 / 2 * (1 / 100))). rewrite H2, H3. reflexivity. }
  unfold call_task, sym_task. cbn [map fuzzy_simulate]. fold N. fold F. eapply obind_ok.
  { unfold fuzzy_evaluate. cbn [lift_events map call_script lift_stmt fvisit_events nth_error sym_path call_path]. eapply obind_ok; [|reflexivity].
  cbn [fvisit_all]. eapply obind_ok; [|reflexivity].
  lazymatch goal with |- @fvisit_stmt _ _ ?c ?d ?m (SIf ?f ?af ?cd ?t ?e) ?s = ?rhs =>
    change (obind (@fvisit_cond N F c d m cd (with_lvl s (lvl s + 1))) (fun s1 => obind (top_and_pop 0 (fz s1)) (fun p =>
      obind (if @surely N F (fst p) then @fvisit_all N F c d m t (with_fz s1 (snd p))
             else if @never N F (fst p) then Ok (with_fz s1 (snd p))
             else do s3 <- save0 af (with_fz s1 (snd p)); do s4 <- fvisit_all c d m t s3; do s5 <- swap1 af s4; do s6 <- Ok s5; blend (fst p) af s6)
        (fun s6 => Ok (with_lvl s6 (lvl s6 - 1))))) = rhs) end.
    eapply obind_ok; [reflexivity|]. eapply obind_ok; [reflexivity|].
    lazymatch goal with |- context [@surely _ _ ?d] => replace (@surely N F d) with true end; [eapply obind_ok; [|reflexivity]|].
    { lazymatch goal with |- ?l = _ => let v := eval cbv -[IZR Rmult Rplus Rminus Ropp Rdiv r_eps pow degree_cmp] in l in change l with v end. reflexivity. }
    symmetry. etransitivity; [apply f_equal; exact HD|]. exact H4. }
  reflexivity.
Qed.
(** one path, recorded as one operation after the two inputs: the hypotheses of C70_risks hold *)
Definition call_pre : list (AadModel.stmt R) := [Input 0; Input 1].
Definition call_tape : list (list (AadModel.stmt R) * nat) := [([Expr (Bin OPSub (AadModel.Num 0%nat) (AadModel.Num 1%nat))], 2%nat)].
Example C70_example :
  tasks 1 (Z.of_nat (num_threads 2)) = Ok [(0, 1)%Z] /\ any_schedule 2 1 [(0%nat, 1%nat)] /\
  map call_path (paths_of (0, 1)%Z) = [call_path 0] /\ starts_with_inputs 2 call_pre call_tape /\ proper (fun _ => 0) (fun _ => 0) 4 x_at call_pre call_tape /\
  (exists traces, call_task (less_at (fun _ => 0) (fun _ => 0) x_at) = Ok traces /\ recorded (fun _ => 0) (fun _ => 0) 0 traces call_pre call_tape) /\
  forall i, steady (fun _ => 0) (fun _ => 0) x_at i call_task.
Proof.
  split; [reflexivity|]. split; [split; [apply Permutation_refl|repeat constructor; cbn; tauto]|]. split; [reflexivity|]. split.
  { split; [exists []; split; [reflexivity|constructor]|]. repeat constructor. intros i H. discriminate H. }
  split. { unfold proper, leaves_fit. cbn. repeat constructor; try discriminate; lia. }
  split. { eexists. split; [apply call_trace; unfold call_tests; repeat constructor|]. reflexivity. }
  intros i. apply (C70_no_ties _ _ x_at i call_tests).
  - assert (0 < r_eps < 1) as He by (unfold r_eps; lra). unfold call_tests, clear_at. repeat constructor; cbn [den r_beval x_at fst snd]; lra.
  - intros T H. rewrite (call_trace T H). symmetry. apply call_trace. unfold call_tests. repeat constructor.
Qed.
End Example70.

(** * Findings *)
Section Findings70.
Variables (T : sym -> sym -> bool) (x : nat -> R).
Let N := SymNum (fun _ => 0) (fun _ => 0) T.
(** X = K * SPOT(), the spot being input 0 and K, a constant variable of value 3, input 1 *)
Definition scaled : list (list (@stmt N)) := [[@SAssign N (LVar None (lit "X") 0) (EBin None Mul (@EConstVar N (lit "K") 0 (SCon 3)) (ESpot None) [])]].
(** Finding: in a compiled script the constant variables are the values they had, not the numbers on the tape: no sensitivity to them is found. *)
Theorem C70_compiled_constants_refuted :
  (do s <- @evaluate N [SIn 1] [SCon 0] [@Sample N (SIn 0) (SCon 1)] scaled (EState [] empty_stack empty_stack); Ok (vars s)) = Ok [SBin OPMult (SIn 1) (SIn 0)] /\
  (do s <- @evaluate_compiled N 0 20 [SCon 0] [@Sample N (SIn 0) (SCon 1)] scaled (EState [] empty_stack empty_stack); Ok (vars s)) = Ok [SBin OPMult (SIn 0) (SCon 3)] /\
  derivable_pt_lim (fun y => den (fun _ => 0) (fun _ => 0) (with_input x 1 y) (SBin OPMult (SIn 1) (SIn 0))) (x 1%nat) (x 0%nat) /\
  derivable_pt_lim (fun y => den (fun _ => 0) (fun _ => 0) (with_input x 1 y) (SBin OPMult (SIn 0) (SCon 3))) (x 1%nat) 0.
Proof.
  split; [reflexivity|]. split; [reflexivity|]. cbn [den r_beval with_input Nat.eqb]. split.
  - apply (derivable_pt_lim_ext (fun y => x 0%nat * y)); [intros y; unfold with_input; cbn; ring|]. pose proof (derivable_pt_lim_scal id (x 0%nat) (x 1%nat) 1 (derivable_pt_lim_id _)) as H. rewrite Rmult_1_r in H. exact H.
  - apply derivable_pt_lim_const.
Qed.
(** Finding: a payoff that is a constant variable is on the tape before the mark, and propagation from it to the mark leaves the tape. *)
Theorem C70_constant_payoff_refuted :
  sym_task (fun _ => 0) (fun _ => 0) (1 / 100) [0] [[@SAssign RN (LVar None (lit "X") 0) (@EConstVar RN (lit "K") 0 100)]] 1 [SIn 1] T [[(SIn 0, SCon 1)]] = Ok [[SIn 1]] /\
  recorded (fun _ => 0) (fun _ => 0) 0 [[SIn 1]] [Input 0; Input 1] [([], 1%nat)] /\
  r_path_gradient (fun _ => 0) (fun _ => 0) 4 4 x [Input 0; Input 1] [([], 1%nat)] = UB.
Proof. split; [reflexivity|]. split; reflexivity. Qed.
End Findings70.
Print Assumptions C70_compiled_constants_refuted.
Print Assumptions C70_constant_payoff_refuted.
