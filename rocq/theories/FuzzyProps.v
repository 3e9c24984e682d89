(** C17 variables affected by an IF; C18 fuzzy evaluation. *)
From Coq Require Import String ZArith List Bool Lia ZifyBool QArith Qcanon.
From Coq Require Import Floats.SpecFloat.
From Verif Require Import Base StringModel ScriptModel ScriptSpec ScriptNum ScriptEval ScriptProps FuzzyModel FuzzySpec FuzzyProofs FuzzyClear DateModel.
Import ListNotations.
Open Scope Z_scope.

(** * C17 *)
Section C17.
Context {N : Num}.
(** For scripts nested up to 128 deep the pass succeeds, changes nothing but the lists attached to the IFs, leaves on
    every IF the increasing list of the variables assigned or paid in its branches, and reports the greatest nesting. *)
Theorem C17_affected_variables : forall events, depth_events events <= 128 ->
  exists s events', if_events events if_init = Ok (s, events') /\ max_level s = depth_events events /\
    map (map unmarked) events' = map (map unmarked) events /\ Forall (Forall marked) events'.
Proof.
  intros events Hd. destruct (if_events_ok events if_init) as (s & l & E & _ & M & U & K & _).
  - unfold if_pre, if_init. cbn [level max_level vstack empty_stack sp]. repeat split; try lia.
  - reflexivity.
  - exists s, l. split; [exact E|]. split; [|auto]. rewrite M. cbn [max_level if_init].
    assert (H : 0 <= depth_events events) by (clear; induction events as [|e r IH]; unfold depth_events; cbn [fold_right]; [lia|]; fold (depth_events r); lia). lia.
Qed.
(** Executing an IF changes no variable outside its list. *)
Theorem C17_nothing_else_changes : forall past smp nv consts f af c t e env i,
  wf_stmt nv consts (SIf f af c t e) -> marked (SIf f af c t e) -> Z.of_nat (List.length env) = nv -> 0 <= i -> ~ In i af ->
  lookup (exec past smp (SIf f af c t e) env) i = lookup env i.
Proof.
  intros past smp nv consts f af c t e env i W M Hl Hi Hn. apply (exec_others past smp nv consts); auto. intros C. apply Hn. cbn [marked] in M. destruct M as [[_ M] _]. now apply M.
Qed.
End C17.
Print Assumptions C17_affected_variables.
Print Assumptions C17_nothing_else_changes.
Section Example17.
Local Existing Instance ZNum.
Definition nested : list (list stmt) :=
  [[SIf nof [9] (sup (EConst 1)) [SAssign (LVar None (lit "c") 2) (EConst 1); SIf nof [] (sup (EConst 1)) [SPays (LVar None (lit "a") 0) (EConst 1)] None; SAssign (LVar None (lit "c") 2) (EConst 1)]
      (Some [SAssign (LVar None (lit "b") 1) (EConst 4)])]].
Example C17_example : match if_events nested if_init with
  | Ok (s, [[SIf _ af _ [_; SIf _ af2 _ _ _; _] _]]) => af = [0; 1; 2] /\ af2 = [0] /\ max_level s = 2
  | _ => False end /\ depth_events nested = 2.
Proof. vm_compute. auto. Qed.
(** 129 levels write past the stack of sets *)
Fixpoint tower (n : nat) : list stmt := match n with O => [] | S k => [SIf nof [] (sup (EConst 1)) (tower k) None] end.
Example C17_too_deep : if_events [tower 129] if_init = UB.
Proof. vm_compute. reflexivity. Qed.
End Example17.

(** * C18 *)
Section C18.
Context {N : Num} {F : FuzzyNum N}.
(** one evaluator, used for path after path as a simulation does *)
Fixpoint fuzzy_simulate (consts : list num) (defEps : num) (init : list num) (events : list (list stmt)) (paths : list (list sample)) (s : fstate) : outcome (list (list num)) :=
  match paths with
  | [] => Ok []
  | p :: r => do s1 <- fuzzy_evaluate consts defEps init p events s; do rest <- fuzzy_simulate consts defEps init events r s1; Ok (vars (base s1) :: rest)
  end.
(** On products whose IFs carry their lists, with stores deep enough and without negations, the evaluator computes on each
    path the fuzzy meaning of the script: degree-weighted combinations of what the two branches give. *)
Theorem C18_meaning : forall consts defEps init events rows paths,
  Forall (Forall (fun st => wf_stmt (Z.of_nat (List.length init)) consts st /\ no_not st /\ ffits st /\ marked st)) events ->
  depth_events events <= Z.of_nat rows -> Forall (fun p => (List.length events <= List.length p)%nat) paths ->
  fuzzy_simulate consts defEps init events paths (fuzzy_new init rows) = Ok (map (fun p => fexec_events defEps events p init) paths).
Proof.
  intros consts defEps init events rows paths Hc Hd Hp.
  assert (G : forall s, good (Z.of_nat (List.length init)) (Z.of_nat rows) s -> lvl s = 0 -> fuzzy_simulate consts defEps init events paths s = Ok (map (fun p => fexec_events defEps events p init) paths)).
  { induction Hp as [|p r H1 H2 IH]; intros s G Hl; cbn [fuzzy_simulate map]; [reflexivity|].
    destruct (fvisit_events_ok consts defEps (Z.of_nat (List.length init)) (Z.of_nat rows) events p []
                (FState (EState init (reset (dst (base s))) (reset (bst (base s)))) (fz s) (store0 s) (store1 s) (lvl s)) Hc Hd) as (s1 & E & G1 & L1 & V1); [|exact Hl|exact H1|].
    - destruct G as (G1 & G2 & G3 & G4 & G5 & G6 & G7). unfold good. cbn [base vars dst bst fz store0 store1 lvl reset sp]. repeat split; auto; try apply G2; apply G3.
    - unfold fuzzy_evaluate. cbn [app List.length] in E. rewrite E. cbn [obind]. rewrite IH by assumption. cbn [obind]. now rewrite V1. }
  apply G; [|reflexivity]. unfold good, fuzzy_new, shape. cbn [base vars dst bst fz store0 store1 lvl empty_stack sp]. rewrite repeat_length.
  assert (R : Forall (fun r : list num => Z.of_nat (List.length r) = Z.of_nat (List.length init)) (repeat (repeat n_zero (List.length init)) rows)) by (apply Forall_forall; intros x Hx; apply repeat_spec in Hx; subst x; now rewrite repeat_length).
  repeat split; auto; lia.
Qed.
(** Where every comparison that is met lies outside (or on the edge of) its smoothing zone, fuzzy evaluation is ordinary
    evaluation. *)
Theorem C18_clear_is_ordinary : forall consts defEps init events rows paths dmax s, clear_laws ->
  Forall (Forall (fun st => wf_stmt (Z.of_nat (List.length init)) consts st /\ no_not st /\ ffits st /\ marked st)) events ->
  depth_events events <= Z.of_nat rows -> Forall (fun p => (List.length events <= List.length p)%nat) paths ->
  Forall (fits_all dmax) events -> dmax <= 128 ->
  Forall (fun p => clear_events defEps events p init) paths ->
  fuzzy_simulate consts defEps init events paths (fuzzy_new init rows) = simulate consts init events paths s.
Proof.
  intros consts defEps init events rows paths dmax s HL Hc Hd Hp Hf Hdm Hcl. rewrite (C18_meaning consts defEps init events rows paths Hc Hd Hp).
  rewrite (C19_simulation consts init events dmax paths s); auto.
  - f_equal. apply map_ext_in. intros p Hin. rewrite Forall_forall in Hcl. apply fexec_events_clear; auto.
  - eapply Forall_impl; [|exact Hc]. intros l Hl. unfold wf_all. eapply Forall_impl; [|exact Hl]. intros a Ha; apply Ha.
Qed.
(** Finding: a negated condition ([!=]) reads the empty stack of truth values, on every path. *)
Theorem C18_negation_refuted : forall consts defEps smp nv rows s f f1 f2 af op z e t l, good nv rows s -> wf_expr nv consts e -> need e <= 128 ->
  fvisit_stmt consts defEps smp (SIf f af (CNot f1 (CCmp f2 op z e)) t l) s = UB.
Proof.
  intros consts defEps smp nv rows s f f1 f2 af op z e t l (G1 & _ & _ & _ & G5 & G6 & G7) W Hn. cbn [fvisit_stmt fvisit_cond with_lvl base].
  destruct (visit_expr_ok false consts smp nv e (base s) W G1 ltac:(lia) ltac:(lia)) as (d & E & P). rewrite E. cbn [obind with_d dst bst vars].
  pose proof (need_pos e). destruct (top_and_pop_ok 0 _ _ _ P ltac:(lia)) as [E1 K]. rewrite E1. cbn [obind fst snd fz].
  destruct (push_ok 0 (degree_cmp defEps op z (meaning false smp (vars (base s)) e)) (fz s) ltac:(lia)) as (z1 & E2 & P2). cbn [with_lvl fz]. rewrite E2. cbn [obind base bst].
  unfold top, sget. rewrite G6. reflexivity.
Qed.
End C18.
Print Assumptions C18_meaning.
Print Assumptions C18_clear_is_ordinary.
Print Assumptions C18_negation_refuted.

(** ** In exact arithmetic *)
Section C18Q.
Local Open Scope Qc_scope.
(** The laws used above hold in exact arithmetic. *)
Theorem C18_laws_hold : @clear_laws QNum QFuzzy.
Proof. exact q_laws. Qed.
(** Every IF gives, for all variables with one and the same weight, a weighted average of what its branches give; the
    weight is the degree of truth of the condition up to EPSILON, and degrees of truth lie in [0, 1]. *)
Theorem C18_weighted_average : forall (defEps : Qc) (smp : sample) nv consts f af c t e (env : list Qc),
  zones defEps c -> wf_stmt nv consts (SIf f af c t e) -> Z.of_nat (List.length env) = nv ->
  let dt : Qc := degree defEps smp env c in
  let yes := fexec_all defEps smp t env in
  let no := match e with None => env | Some l => fexec_all defEps smp l env end in
  0 <= dt <= 1 /\ exists d : Qc, 0 <= d <= 1 /\ dt - q_eps <= d <= dt + q_eps /\
    forall i, (0 <= i < nv)%Z -> (lookup (fexec defEps smp (SIf f af c t e) env) i : Qc) = d * lookup yes i + (1 - d) * lookup no i.
Proof.
  intros defEps smp nv consts f af c t e env Hz W Hl dt yes no. pose proof (degree_01 defEps smp env c Hz) as D01. fold dt in D01. split; [exact D01|].
  assert (EX : @fexec QNum QFuzzy defEps smp (SIf f af c t e) env = if @surely QNum QFuzzy dt then yes else if @never QNum QFuzzy dt then no else mix dt (assigned (SIf f af c t e)) yes no) by (destruct e; reflexivity).
  cbn [wf_stmt] in W. destruct W as (W1 & W2 & W3).
  assert (Fy : List.length yes = List.length env /\ forall i, (0 <= i < nv)%Z -> ~ In i (flat_map assigned t) -> lookup yes i = lookup env i) by exact (@fexec_facts QNum QFuzzy consts defEps smp nv (SCollect t) env W2 Hl).
  assert (Fn : List.length no = List.length env /\ forall i, (0 <= i < nv)%Z -> ~ In i (match e with None => [] | Some l => flat_map assigned l end) -> lookup no i = lookup env i).
  { subst no. destruct e as [l|]; [exact (@fexec_facts QNum QFuzzy consts defEps smp nv (SCollect l) env W3 Hl)|auto]. }
  assert (R1 : forall u w : Qc, u = 1 * u + (1 - 1) * w) by (intros; ring). assert (R0 : forall u w : Qc, w = 0 * u + (1 - 0) * w) by (intros; ring). assert (R : forall u : Qc, u = dt * u + (1 - dt) * u) by (intros; ring).
  assert (Pe : 0 <= q_eps) by discriminate. clearbody yes no dt. revert EX. destruct (@surely QNum QFuzzy dt) eqn:E1; [|destruct (@never QNum QFuzzy dt) eqn:E2]; intros EX.
  - exists 1. cbn [surely QFuzzy] in E1. rewrite qc1, qc_ltb_iff in E1. split; [split; [discriminate|apply Qcle_refl]|]. split.
    + split; [apply Qcle_trans with dt; [|apply D01]; apply qc_le_minus; replace (dt - (dt - q_eps)) with q_eps by ring; exact Pe|].
      apply Qclt_le_weak. apply qc_lt_minus. replace (dt + q_eps - 1) with (dt - (1 - q_eps)) by ring. now apply (proj1 (qc_lt_minus _ _)).
    + intros i Hi. rewrite EX. apply (R1 _ (lookup no i)).
  - exists 0. cbn [never QFuzzy] in E2. rewrite qc_ltb_iff in E2. split; [split; [apply Qcle_refl|discriminate]|]. split.
    + split; [apply Qclt_le_weak, qc_lt_minus; replace (0 - (dt - q_eps)) with (q_eps - dt) by ring; now apply (proj1 (qc_lt_minus _ _))|].
      apply Qcle_trans with dt; [apply D01|]. apply qc_le_minus. replace (dt + q_eps - dt) with q_eps by ring; exact Pe.
    + intros i Hi. rewrite EX. apply (R0 (lookup yes i)).
  - exists dt. split; [exact D01|]. split; [split; apply qc_le_minus; [replace (dt - (dt - q_eps)) with q_eps by ring|replace (dt + q_eps - dt) with q_eps by ring]; exact Pe|].
    intros i Hi. rewrite EX. rewrite mix_lookup by lia. cbn [assigned]. destruct (existsb _ _) eqn:Ex.
    + cbn [n_add n_mul n_sub n_one QNum QFuzzy]. now rewrite qc1.
    + assert (Hn : ~ In i (flat_map assigned t ++ match e with None => [] | Some l => flat_map assigned l end)) by (intros C; apply existsb_in in C; congruence).
      rewrite in_app_iff in Hn. rewrite (proj2 Fy), (proj2 Fn) by tauto. apply R.
Qed.
End C18Q.
Print Assumptions C18_laws_hold.
Print Assumptions C18_weighted_average.
Section Example18.
Local Existing Instance QNum.
Local Existing Instance QFuzzy.
Definition q (n : Z) : Qc := qc n 1.
Definition wide (e : Qc) : fuzz := Fuzz false e (q 0) (q 0).
(** IF SPOT > 100 ; width 10 THEN x = 1 ELSE x = 3 ; then y PAYS x *)
Definition digital : list (list stmt) :=
  [[SIf nof [0] (CCmp nof Sup (wide (q 10)) (EBin None Sub (ESpot None) (EConst (q 100)) [])) [SAssign (LVar None (lit "x") 0) (EConst (q 1))] (Some [SAssign (LVar None (lit "x") 0) (EConst (q 3))]);
    SPays (LVar None (lit "y") 1) (EVar None (lit "x") 0)]].
Definition spot (n : Z) : list sample := [Sample (q n) (q 1)].
Definition shown (r : outcome (list (list Qc))) : outcome (list (list Q)) := do l <- r; Ok (map (map this) l).
Example C18_example :
  shown (fuzzy_simulate [] (q 1) [q 0; q 0] digital [spot 95; spot 101; spot 120; spot 80] (fuzzy_new [q 0; q 0] 1)) =
    Ok [[3; 3]; [9 # 5; 9 # 5]; [1; 1]; [3; 3]]%Q /\
  shown (simulate [] [q 0; q 0] digital [spot 95; spot 101; spot 120; spot 80] (EState [] empty_stack empty_stack)) = Ok [[3; 3]; [1; 1]; [1; 1]; [3; 3]]%Q.
Proof. vm_compute. auto. Qed.
Example C18_example_hyps : Forall (Forall (fun st => wf_stmt 2 [] st /\ no_not st /\ ffits st /\ marked st)) digital /\ depth_events digital = 1 /\ Forall (fits_all 128) digital /\
  Forall (fun p => clear_events (q 1) digital p [q 0; q 0]) [spot 95; spot 120; spot 80].
Proof.
  split; [|split; [vm_compute; reflexivity|split]].
  - unfold digital, nof, wide. repeat (apply Forall_cons || apply Forall_nil); (split; [small|split; [small|split; [small|]]]); cbn; auto.
    all: repeat match goal with |- _ /\ _ => split | |- True => exact I | |- _ <= _ => lia | |- _ < _ => lia end.
    unfold set_of. split; [cbn; auto|]. intros i. cbn [In]. tauto.
  - unfold digital, nof, wide. small.
  - repeat (apply Forall_cons || apply Forall_nil); unfold digital, spot; cbn [clear_events]; (split; [|exact I]); cbn [clear_all clear_stmt]; (split; [|split; exact I]); cbn [clear_cond clear_stmt]; (split; [split; [vm_compute; reflexivity|]|vm_compute; auto]); unfold clear_cmp, wide; cbn [isDiscrete eps].
    + right. right. left. apply Qc_is_canon. vm_compute. reflexivity.
    + right. left. vm_compute. reflexivity.
    + left. vm_compute. reflexivity.
Qed.
End Example18.
(** ** In double precision, a width of zero *)
Section Zero.
Definition FFuzzy : FuzzyNum FNum := @Build_FuzzyNum FNum (fl_of_Z 1) (fdiv (fl_of_Z 1) (fl_of_Z 2)) SFabs (fun x => SFltb (fsub (fl_of_Z 1) f_eps) x) (fun x => SFltb x f_eps).
Local Existing Instance FNum.
Local Existing Instance FFuzzy.
Definition digital0 : list (list stmt) :=
  [[SIf nof [0] (CCmp nof Sup (Fuzz false f_zero f_zero f_zero) (EBin None Sub (ESpot None) (EConst (fl_of_Z 100)) [])) [SAssign (LVar None (lit "x") 0) (EConst (fl_of_Z 1))] (Some [SAssign (LVar None (lit "x") 0) (EConst (fl_of_Z 3))])]].
(** Finding: at the switching point the degree is 0/0, and the variable becomes not-a-number (3 in ordinary evaluation). *)
Theorem C18_zero_width_refuted :
  fuzzy_simulate [] (fl_of_Z 1) [f_zero] digital0 [[Sample (fl_of_Z 100) (fl_of_Z 1)]] (fuzzy_new [f_zero] 1) = Ok [[S754_nan]] /\
  simulate [] [f_zero] digital0 [[Sample (fl_of_Z 100) (fl_of_Z 1)]] (EState [] empty_stack empty_stack) = Ok [[fl_of_Z 3]].
Proof. vm_compute. auto. Qed.
End Zero.
Print Assumptions C18_zero_width_refuted.
