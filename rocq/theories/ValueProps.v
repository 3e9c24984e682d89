(** C68: valuing a script. *)
From Coq Require Import String ZArith List Bool Lia ZifyBool Permutation Reals Lra.
From Coq Require Import Floats.SpecFloat.
From Verif Require Import Base Vec StringModel StringSpec ScriptEval ScriptIndex ScriptNum ScriptProps FuzzyModel FuzzySpec FuzzyProofs SimModel SimProofs SimProps DateModel ParserModel DomainModel DomainSpec DomainProofs DomainGrid DomainProps
  ValueModel ValueSpec ValueProofs ValueTrees ValueReal ValueMain ValueSound ScriptModel ScriptSpec.
Import ListNotations.
Open Scope Z_scope.

Section C68.
Context {N : Num}.
(** In any arithmetic, without the analysis of domains: for every script (past and future events, C20), every way of making paths with a
    sample per future event, any number of paths and threads, any order of the tasks and any choice of the thread for each, the total is
    the same sum, batch by batch, of the payoff of each path, read off the script as written. *)
Theorem C68_batches : forall (D : DomNum N) years today payoff past dates future n draw n_paths pool order ts d,
  let times := map (fun t => years (t - today)) dates in
  valid d past future -> is_payoff payoff (past ++ future) n ->
  (forall first i, (List.length future <= List.length (draw times first i))%nat) ->
  tasks n_paths (Z.of_nat (num_threads pool)) = Ok ts -> any_schedule pool (List.length ts) order ->
  exists q, pre_process years today false true (new_product payoff past dates future) = Ok (0, q) /\ time_line q = times /\
    mc_simulation (evaluator q) q draw n_paths pool order = Ok (sum_batches ts (fun first i => final past future n (draw times first i))).
Proof.
  intros D years today payoff past dates future n draw n_paths pool order ts d times V Y L Ht Ho. unfold pre_process. pose proof (index_ok d payoff past dates future V) as J. set (p := index_variables (new_product payoff past dates future)) in *.
  unfold past_values. rewrite (past_ok d payoff past dates future p V J). cbn [obind orb negb fst snd].
  eexists. split; [reflexivity|]. cbn [time_line]. rewrite (i_times _ _ _ _ _ J), (i_dates _ _ _ _ _ J). split; [reflexivity|].
  match goal with |- mc_simulation (evaluator ?q) ?q _ _ _ _ = _ => apply (simulation_ok (evaluator q) q (final past future n) (fun scen => (List.length future <= List.length scen)%nat) draw) end; [|exact L|exact Ht|exact Ho].
  intros scen st Hl. unfold evaluator. cbn [const_values var_values events payoff_at].
  destruct (path_ok d payoff past dates future p V J scen st Hl) as (s & E & Es). exists s. split; [exact E|]. rewrite Es. exact (path_value d payoff past dates future p V J n scen Y).
Qed.
(** Compiled (C14), the simulation gives the same total, in any arithmetic with the laws the folding of constants uses. *)
Theorem C68_compiled : forall (D : DomNum N) years today payoff past dates future n draw n_paths pool order ts d,
  let times := map (fun t => years (t - today)) dates in
  laws -> valid d past future -> is_payoff payoff (past ++ future) n ->
  Forall (Forall fresh_stmt) (past ++ future) -> Forall (fun evt => low_all 0 (-1) evt <> None) future ->
  (forall first i, (List.length future <= List.length (draw times first i))%nat) ->
  tasks n_paths (Z.of_nat (num_threads pool)) = Ok ts -> any_schedule pool (List.length ts) order ->
  exists q c, pre_process years today false true (new_product payoff past dates future) = Ok (0, q) /\ compile q = Ok c /\
    forall fuel, Forall (fun evt => (List.length (fst (comp_all evt ([], []))) < fuel)%nat) (events c) ->
      mc_simulation (compiled_evaluator fuel c) c draw n_paths pool order = Ok (sum_batches ts (fun first i => final past future n (draw times first i))).
Proof.
  intros D years today payoff past dates future n draw n_paths pool order ts d times HL V Y Fr Lo L Ht Ho. unfold pre_process. pose proof (index_ok d payoff past dates future V) as J. set (p := index_variables (new_product payoff past dates future)) in *.
  unfold past_values. rewrite (past_ok d payoff past dates future p V J). cbn [obind orb negb fst snd].
  assert (T : Forall (wf_all (Z.of_nat (List.length (var_names p))) (const_values p)) (past_events p) /\ Forall (wf_all (Z.of_nat (List.length (var_names p))) (const_values p)) (events p)) by (pose proof (i_wf _ _ _ _ _ J) as W; apply Forall_app in W; exact W).
  destruct T as [W1 W2]. apply Forall_app in Fr as [Fr1 Fr2].
  assert (Fp : Forall (Forall fresh_stmt) (past_events p)) by (apply (same_lists plain_stmt fresh_stmt fresh_plain past); [symmetry; exact (i_past _ _ _ _ _ J)|exact Fr1]).
  assert (Ff : Forall (Forall fresh_stmt) (events p)) by (apply (same_lists plain_stmt fresh_stmt fresh_plain future); [symmetry; exact (i_future _ _ _ _ _ J)|exact Fr2]).
  assert (Fi : Forall (fits_all 128) (events p)).
  { pose proof (fits_future d payoff past dates future p V J) as F. pose proof (d_bound d payoff past dates future p V J) as Db.
    eapply Forall_impl; [|exact F]. intros e He. eapply Forall_impl; [|exact He]. intros s. apply fits_more. exact Db. }
  assert (Lw : Forall (fun evt => low_all 0 (-1) evt <> None) (events p)) by (apply (low_events future); [symmetry; exact (i_future _ _ _ _ _ J)|exact Lo]).
  set (q := Product _ _ _ _ _ _ _ _ _ _).
  assert (Tq : time_line q = times) by (unfold q; cbn [time_line]; now rewrite (i_times _ _ _ _ _ J), (i_dates _ _ _ _ _ J)).
  assert (G : forall scen, (List.length future <= List.length scen)%nat -> forall fuel s1 s2, exists k pasts' k' futures' r1, const_events (past_events p) (known_init (List.length (var_names p))) = Ok (k, pasts') /\ const_events (events p) k = Ok (k', futures') /\
    evaluate (const_values p) (start p) scen (events p) s1 = Ok r1 /\
    (Forall (fun evt => (List.length (fst (comp_all evt ([], []))) < fuel)%nat) futures' -> exists r2, evaluate_compiled 0 fuel (start p) scen futures' s2 = Ok r2 /\ vars r2 = vars r1)).
  { intros scen Hl fuel s1 s2. apply (C14_compiled_is_interpreted (const_values p) (List.length (var_names p)) (past_events p) (events p) scen fuel s1 s2 HL W1 W2 Fp Ff Fi); [|exact Lw]. exact (path_length payoff past dates future p J scen Hl). }
  destruct (G (draw times 0 0%nat) (L 0 0%nat) 0%nat (new_state q) (new_state q)) as (k & p' & k' & f' & r1 & E1 & E2 & _).
  exists q, (with_events q p' f'). split; [reflexivity|]. split.
  { unfold compile. change (past_events q) with (past_events p). change (events q) with (events p). change (var_names q) with (var_names p). rewrite E1. cbn [obind fst snd]. rewrite E2. reflexivity. }
  intros fuel Hfuel. change (events (with_events q p' f')) with f' in Hfuel. rewrite <- Tq. change (time_line q) with (time_line (with_events q p' f')).
  apply (simulation_ok (compiled_evaluator fuel (with_events q p' f')) (with_events q p' f') (final past future n) (fun scen => (List.length future <= List.length scen)%nat) draw).
  - intros scen st Hl. unfold compiled_evaluator. change (var_values (with_events q p' f')) with (start p). change (events (with_events q p' f')) with f'. change (payoff_at (with_events q p' f')) with (payoff_at p).
    destruct (G scen Hl fuel st st) as (k2 & p2 & k2' & f2 & r & X1 & X2 & X3 & X4). rewrite E1 in X1. injection X1 as <- <-. rewrite E2 in X2. injection X2 as <- <-. destruct (X4 Hfuel) as (r2 & X5 & X6).
    exists r2. split; [exact X5|]. rewrite X6. destruct (path_ok d payoff past dates future p V J scen st Hl) as (s & E & Es). rewrite E in X3. injection X3 as <-. rewrite Es. exact (path_value d payoff past dates future p V J n scen Y).
  - change (time_line (with_events q p' f')) with (time_line q). rewrite Tq. exact L.
  - exact Ht.
  - exact Ho.
Qed.
End C68.
Print Assumptions C68_batches.
Print Assumptions C68_compiled.

(** ** ValueByMonteCarlo on real numbers, with the analysis of domains and the elimination of dead branches *)
Section C68Real.
Variables (f_log f_sqrt f_exp : R -> R) (f_pow : R -> R -> R).
#[local] Hint Extern 0 Num => exact (RNum f_log f_sqrt f_exp f_pow) : typeclass_instances.
Local Notation RN := (RNum f_log f_sqrt f_exp f_pow).
Local Notation safe_past := (safe_past f_log f_sqrt f_exp f_pow).
Local Notation safe_future := (safe_future f_log f_sqrt f_exp f_pow).
(** what is asked of a valuation: a known model, a script with IFs at most 128 deep (C17), a number of paths that fits (C21), a generator that
    can be moved to any path, paths with a sample per date, the past and every path safe *)
Definition can_value (years : Z -> R) (today : Z) (model_type : str) (past : list (list (@stmt RN))) (dates : list Z) (future : list (list (@stmt RN))) (n : str)
  (draw : list R -> Z -> nat -> list (@sample RN)) (path : list R -> Z -> list (@sample RN)) (n_paths : Z) (pool : nat) (order : list (nat * nat)) : Prop :=
  (exists m, In m model_store /\ same_up_to_case model_type m) /\
  (exists d, valid d past future) /\ depth_events (past ++ future) <= 128 /\ is_payoff [] (past ++ future) n /\ safe_past past all_zero /\
  0 < n_paths < 2 ^ 31 /\ ~ (n_paths = 2 ^ 31 - 1 /\ (pool <= 1)%nat) /\
  (forall ts, tasks n_paths (Z.of_nat (num_threads pool)) = Ok ts -> any_schedule pool (List.length ts) order) /\
  (forall times first i, draw times first i = path times (first + Z.of_nat i)) /\
  (forall i, let scen := path (map (fun t => years (t - today)) dates) i in (List.length future <= List.length scen)%nat /\ safe_future future scen (perform_past past all_zero)).
Lemma value_ok (D : DomNum RN) (tests_fine : list (list (@stmt RN)) -> Prop) : (forall l l', map (map (bare f_log f_sqrt f_exp f_pow)) l' = map (map (bare f_log f_sqrt f_exp f_pow)) l -> tests_fine l -> tests_fine l') ->
  (forall fuzzy consts nvars dmax past future scen init vd evs (st : @estate RN),
    ready f_log f_sqrt f_exp f_pow consts nvars dmax past future scen init -> tests_fine (past ++ future) ->
    @dom_events RN D fuzzy (past ++ future) (@dom_init RN nvars) = Ok (vd, evs) ->
    exists s1 s2, @evaluate RN consts init scen future st = Ok s1 /\ @evaluate RN consts init scen (cc_events (skipn (List.length past) evs)) st = Ok s2 /\ vars s2 = vars s1) ->
  forall years today model_type past dates future n draw path n_paths pool order,
  can_value years today model_type past dates future n draw path n_paths pool order -> tests_fine (past ++ future) ->
  (exists r, @pre_process RN D years today false false (new_product [] past dates future) = Ok r) ->
  @value_by_monte_carlo RN D years IZR today model_type past dates future draw n_paths pool order =
    Ok (Rdiv (@sum_up RN (Z.to_nat n_paths) (fun i => final past future n (path (map (fun t => years (t - today)) dates) (Z.of_nat i)))) (IZR n_paths)).
Proof.
  intros Tm Snd years today model_type past dates future n draw path n_paths pool order ((m & Hm & Hc) & (d & V) & Dp & Y & Sp & Hn & Hb & Ho & Hd & Hs) Tf ((level & q) & E).
  unfold value_by_monte_carlo. replace (existsb (ci_eqb model_type) model_store) with true; [|symmetry; apply existsb_exists; exists m; split; [exact Hm|now apply StringProofs.ci_eqb_iff]].
  cbn [negb]. rewrite E. cbn [obind snd].
  destruct (eliminated_path f_log f_sqrt f_exp f_pow D tests_fine Tm Snd d years today false [] past dates future level q n V Dp Tf Y Sp E) as [Tq Ev].
  destruct (C21_partition n_paths (Z.of_nat (num_threads pool))) as (ts & room & Et & _ & C & _ & _); [lia|unfold num_threads; lia|unfold num_threads; intros [A B]; apply Hb; split; [exact A|lia]|].
  rewrite (simulation_ok (evaluator q) q (final past future n) (fun scen => (List.length future <= List.length scen)%nat /\ safe_future future scen (perform_past past all_zero)) draw n_paths pool order ts Ev); [|rewrite Tq; intros f i; rewrite Hd; apply Hs|exact Et|now apply Ho].
  cbn [obind n_div RNum]. f_equal. f_equal. rewrite Tq.
  set (times := map _ dates) in *.
  rewrite <- (sum_batches_all f_log f_sqrt f_exp f_pow ts (Z.to_nat n_paths) (fun i => final past future n (path times i)) C).
  unfold sum_batches. f_equal. apply map_ext. intros t. unfold sum_up. f_equal. apply map_ext. intros i. now rewrite Hd.
Qed.
(** Whatever the number of threads and whichever thread runs which task in whatever order, the value is the mean over the paths of the payoff
    read off the script as written - all of it, dead branches included; the payoff is the last variable to appear.  The comparisons of bounds
    in the analysis are exact here. *)
Theorem C68_value : forall years today model_type past dates future n draw path n_paths pool order,
  can_value years today model_type past dates future n draw path n_paths pool order ->
  (exists r, pre_process (D := exact_tests f_log f_sqrt f_exp f_pow) years today false false (new_product [] past dates future) = Ok r) ->
  value_by_monte_carlo (D := exact_tests f_log f_sqrt f_exp f_pow) years IZR today model_type past dates future draw n_paths pool order =
    Ok (Rdiv (@sum_up RN (Z.to_nat n_paths) (fun i => final past future n (path (map (fun t => years (t - today)) dates) (Z.of_nat i)))) (IZR n_paths)).
Proof.
  intros years today model_type past dates future n draw path n_paths pool order Hc Hp.
  apply (value_ok (exact_tests f_log f_sqrt f_exp f_pow) (fun _ => True)); auto.
  intros. eapply C16_dead_branches; eassumption.
Qed.
(** The same with the comparisons the code makes, for scripts that keep away from its tolerances (C16). *)
Theorem C68_value_code : forall years today model_type past dates future n draw path n_paths pool order,
  can_value years today model_type past dates future n draw path n_paths pool order -> plain_events f_log f_sqrt f_exp f_pow 1 0 (past ++ future) ->
  (exists r, pre_process (D := real_code_tests f_log f_sqrt f_exp f_pow) years today false false (new_product [] past dates future) = Ok r) ->
  value_by_monte_carlo (D := real_code_tests f_log f_sqrt f_exp f_pow) years IZR today model_type past dates future draw n_paths pool order =
    Ok (Rdiv (@sum_up RN (Z.to_nat n_paths) (fun i => final past future n (path (map (fun t => years (t - today)) dates) (Z.of_nat i)))) (IZR n_paths)).
Proof.
  intros years today model_type past dates future n draw path n_paths pool order Hc Hf Hp.
  apply (value_ok (real_code_tests f_log f_sqrt f_exp f_pow) (plain_events f_log f_sqrt f_exp f_pow 1 0)); auto.
  - intros l l' E H. now apply (far_events f_log f_sqrt f_exp f_pow 1 0 l).
  - intros. eapply C16_dead_branches_code; eassumption.
Qed.
(** A model of another type is refused. *)
Theorem C68_unknown_model : forall (D : DomNum RN) years of_int today model_type past dates future draw n_paths pool order,
  (forall m, In m model_store -> ~ same_up_to_case model_type m) ->
  @value_by_monte_carlo RN D years of_int today model_type past dates future draw n_paths pool order = Throw.
Proof.
  intros D years of_int today model_type past dates future draw n_paths pool order H. unfold value_by_monte_carlo. destruct (existsb (ci_eqb model_type) model_store) eqn:E; [|reflexivity].
  apply existsb_exists in E as (m & Hm & Hc). exfalso. apply (H m Hm). now apply StringProofs.ci_eqb_iff.
Qed.
End C68Real.
Print Assumptions C68_value.
Print Assumptions C68_value_code.
Print Assumptions C68_unknown_model.

(** ** Examples *)
Section Example68.
Local Notation RE := (RNum ln sqrt exp Rpower).
#[local] Hint Extern 0 Num => exact (RNum ln sqrt exp Rpower) : typeclass_instances.
Definition v_f : flags := Flags false false.
Definition v_z : @fuzz RE := @Fuzz RE false 0%R 0%R 0%R.
(** x = SPOT() on the first date; on the second IF X > 0 THEN pay = x + SPOT() *)
Definition v_future : list (list (@stmt RE)) :=
  [[SAssign (LVar None (lit "x") (-1)) (@ESpot RE None)];
   [SIf v_f [] (CCmp v_f Sup v_z (@EVar RE None (lit "X") (-1))) [SAssign (LVar None (lit "pay") (-1)) (EBin None Add (@EVar RE None (lit "x") (-1)) (@ESpot RE None) [])] None]].
Definition v_path (times : list R) (i : Z) : list (@sample RE) := [@Sample RE (IZR i - 1)%R 1%R; @Sample RE 7%R 2%R].
Definition v_years (days : Z) : R := (IZR days / 365)%R.
Definition v_indexed (affected : list Z) : list (list (@stmt RE)) :=
  [[SAssign (LVar None (lit "x") 0) (@ESpot RE None)];
   [SIf v_f affected (CCmp v_f Sup v_z (@EVar RE None (lit "X") 0)) [SAssign (LVar None (lit "pay") 1) (EBin None Add (@EVar RE None (lit "x") 0) (@ESpot RE None) [])] None]].
Definition v_line : @domain RE := [@line RE].
Lemma v_steps (D : DomNum RE) vd evs : @dom_events RE D false (v_indexed [1]) (@dom_init RE 2) = Ok (vd, evs) ->
  exists r, @pre_process RE D v_years 100 false false (new_product [] [] [465; 830] v_future) = Ok r.
Proof.
  intros E. assert (A1 : index_variables (new_product [] [] [465; 830] v_future) = @Product RE [] 1 [] [465; 830] (v_indexed []) [] [lit "x"; lit "pay"] [] [] []) by reflexivity.
  unfold pre_process. rewrite A1. unfold past_values. cbn [const_values var_names past_events List.length].
  change (@past_evaluate RE [] 2 []) with (@Ok (list R) [0%R; 0%R]). cbn [obind orb negb].
  unfold if_process. change (all_events _) with (v_indexed []).
  assert (A3 : exists si, @if_events RE (v_indexed []) if_init = Ok (si, v_indexed [1])) by (eexists; reflexivity). destruct A3 as (si & ->). cbn [obind fst snd].
  unfold domain_process. change (all_events (split_events _ (v_indexed [1]))) with (v_indexed [1]). cbn [var_names split_events with_events List.length]. rewrite E. cbn [obind]. eexists. reflexivity.
Qed.
Lemma v_dom : exists vd evs, @dom_events RE (exact_tests ln sqrt exp Rpower) false (v_indexed [1]) (@dom_init RE 2) = Ok (vd, evs).
Proof.
  assert (J : judge (D := exact_tests ln sqrt exp Rpower) false Sup v_line v_z = (TrueOrFalse, v_z)) by reflexivity.
  assert (K : lift2 (D := exact_tests ln sqrt exp Rpower) (i_add (D := exact_tests ln sqrt exp Rpower)) v_line [@line RE] = Ok v_line) by reflexivity.
  assert (M : merge_in (D := exact_tests ln sqrt exp Rpower) [1] [v_line; v_line] [v_line; @dom_of RE 0%R] = Ok [v_line; v_line]) by reflexivity.
  unfold v_indexed. cbn [dom_events dom_all dom_stmt dom_cond dom_expr obind fst snd].
  change (vput (@dom_init RE 2) 0 [@line RE]) with (@Ok (list (@domain RE)) [v_line; @dom_of RE 0%R]). cbn [obind fst snd].
  change (vget [v_line; @dom_of RE 0%R] 0) with (@Ok (@domain RE) v_line). cbn [obind fold_left rev app].
  rewrite J. cbn [obind]. rewrite K. cbn [obind]. change (vput [v_line; @dom_of RE 0%R] 1 v_line) with (@Ok (list (@domain RE)) [v_line; v_line]). cbn [obind fst snd].
  change (restore [1] [v_line; @dom_of RE 0%R] [v_line; v_line]) with (@Ok (list (@domain RE)) [v_line; @dom_of RE 0%R]). cbn [obind]. rewrite M. cbn [obind fst snd]. eexists _, _. reflexivity.
Qed.
Example C68_case : can_value ln sqrt exp Rpower v_years 100 (lit "bsmodeldata_") [] [465; 830] v_future (lit "pay") (fun times first i => v_path times (first + Z.of_nat i)) v_path 3 2 [(0%nat, 1%nat)] /\
  plain_events ln sqrt exp Rpower 1 0 ([] ++ v_future) /\
  (exists r, pre_process (D := exact_tests ln sqrt exp Rpower) v_years 100 false false (new_product [] [] [465; 830] v_future) = Ok r) /\
  (exists r, pre_process (D := real_code_tests ln sqrt exp Rpower) v_years 100 false false (new_product [] [] [465; 830] v_future) = Ok r).
Proof.
  assert (H0 : room 1 0) by (unfold room, r_eps; split; [lia|lra]). assert (H1 : room 1 (0 + 0)) by (unfold room, r_eps; split; [lia|lra]).
  assert (P : plain_events ln sqrt exp Rpower 1 0 ([] ++ v_future)).
  { apply plain_econs with (D1 := 1) (M1 := 0%R).
    - eapply DomainSpec.plain_cons; [|now apply DomainSpec.plain_nil]. apply DomainSpec.plain_assign; [apply Z.divide_refl|lra|now apply plain_spot].
    - apply plain_econs with (D1 := 1) (M1 := (0 + 0)%R); [|constructor]. eapply DomainSpec.plain_cons; [|now apply DomainSpec.plain_nil]. apply DomainSpec.plain_if.
      + exists 1, 0%R. now apply plain_var.
      + eapply DomainSpec.plain_cons; [|now apply DomainSpec.plain_nil]. apply DomainSpec.plain_assign; [apply Z.divide_refl|lra|]. apply plain_add; [now left|now apply plain_var|now apply plain_spot|exact H1]. }
  split; [|split; [exact P|split]].
  - unfold can_value. split; [exists (lit "BSModelData_"); split; [now left|apply StringProofs.ci_eqb_iff; reflexivity]|]. split.
    { exists 2. split; [repeat constructor|]. split; [intros ? ? ? ? ? ? []|]. split; [repeat constructor; cbn; lia|cbn; lia]. }
    split; [cbn; lia|]. split.
    { right. split; [|exists [lit "x"]; reflexivity]. intros m Hm C. apply StringProofs.ci_eqb_iff in C. destruct Hm as [<-|[<-|[]]]; discriminate. }
    split; [exact I|]. split; [lia|]. split; [lia|]. split.
    { intros ts Et. vm_compute in Et. injection Et as <-. split; [reflexivity|]. constructor; [right; now left|constructor]. }
    split; [reflexivity|]. intros i. cbn [v_path List.length v_future]. split; [lia|].
    cbn. split; [auto|]. split; [|exact I]. split; [|exact I]. split; [exact I|].
    destruct (rltb 0 _); [|exact I]. repeat split; discriminate.
  - destruct v_dom as (vd & evs & E). exact (v_steps _ vd evs E).
  - destruct v_dom as (vd & evs & E). apply (v_steps _ vd evs). rewrite (events_same ln sqrt exp Rpower false 1 0 _ (far_events ln sqrt exp Rpower 1 0 _ P (v_indexed [1]) eq_refl) (dom_init 2) (init_grid ln sqrt exp Rpower 2)). exact E.
Qed.
End Example68.

(** ** In binary64 *)
Section Float68.
Local Existing Instance FNum.
#[local] Hint Extern 0 (DomNum _) => exact f_tests : typeclass_instances.
Definition w_sample (s : Z) : sample := Sample (fl_of_Z s) (fl_of_Z 2).
Definition w_years (days : Z) : num := fdiv (fl_of_Z days) (fl_of_Z 365).
(** in the past K = SPOT() - 20; then pay PAYS MAX(SPOT() - k, 0), the payoff being the variable PAY; on path i the spot is i.  2500 paths on two
    threads make two tasks. *)
Definition w_past : list (list stmt) := [[SAssign (LVar None (lit "K") (-1)) (EBin None Sub (ESpot None) (EConst (fl_of_Z 20)) [])]].
Definition w_future : list (list stmt) := [[SPays (LVar None (lit "pay") (-1)) (EBin None Max (EBin None Sub (ESpot None) (EVar None (lit "k") (-1)) []) (EConst (fl_of_Z 0)) [])]].
Definition w_draw (times : list num) (first : Z) (i : nat) : list sample := [w_sample (first + Z.of_nat i)].
Example C68_batches_case : valid 3 w_past w_future /\ is_payoff (lit "PAY") (w_past ++ w_future) (lit "pay") /\
  tasks 2500 (Z.of_nat (num_threads 2)) = Ok [(0, 1251); (1251, 1249)] /\ any_schedule 2 2 [(1%nat, 0%nat); (0%nat, 1%nat)] /\ final w_past w_future (lit "pay") [w_sample 24] = fl_of_Z 7 /\
  (match pre_process w_years 100 false true (new_product (lit "PAY") w_past [465] w_future) with
  | Ok (_, q) => SFeqb (match mc_simulation (evaluator q) q w_draw 2500 2 [(1%nat, 0%nat); (0%nat, 1%nat)] with Ok x => x | _ => S754_nan end) (fl_lit 3098805 2)
  | _ => false end) = true.
Proof.
  split. { split; [repeat constructor|]. split; [intros ? ? ? ? ? ? []|]. split; [repeat constructor; cbn; lia|cbn; lia]. }
  split. { left. split; [vm_compute; auto|apply StringProofs.ci_eqb_iff; reflexivity]. }
  split; [vm_compute; reflexivity|]. split. { split; [cbn; apply perm_swap|]. constructor; [now left|]. constructor; [right; now left|constructor]. }
  split; vm_compute; reflexivity.
Qed.
(** Finding: a script without variables has no payoff; the index of the payoff is then out of range and the value is read beyond the end of an
    empty list. *)
Definition no_vars : list stmt :=
  [SIf (Flags false false) [] (CCmp (Flags false false) Sup (Fuzz false f_eps f_zero f_zero) (EBin None Sub (ESpot None) (EConst f_zero) [])) [] None].
Theorem C68_no_variables_refuted : parse (fun _ => Ok f_zero) (fun _ _ _ => Throw) [] f_eps (lit "IF SPOT() > 0 THEN END") = Ok no_vars /\ variables_of [no_vars] = [] /\
  (match value_by_monte_carlo w_years fl_of_Z 100 (lit "BSModelData_") [] [465] [no_vars] w_draw 1 1 [(0%nat, 0%nat)] with UB => true | _ => false end) = true.
Proof. split; [reflexivity|]. split; [reflexivity|]. vm_compute. reflexivity. Qed.
(** Finding: preprocessing a product again appends the dates to its time line again. *)
Theorem C68_twice_refuted : (match pre_process w_years 100 false true (new_product [] w_past [465; 830] w_future) with
  | Ok (_, q) => match pre_process w_years 100 false true q with Ok (_, r) => Some (time_line q, time_line r) | _ => None end
  | _ => None end) = Some ([fl_of_Z 1; fl_of_Z 2], [fl_of_Z 1; fl_of_Z 2; fl_of_Z 1; fl_of_Z 2]).
Proof. vm_compute. reflexivity. Qed.
(** Finding: with sensitivities the sums are kept per thread, so in binary64 the value depends on which thread runs which task. *)
Definition w_sums (k : nat) : num := match k with O => fl_of_Z (2 ^ 53) | _ => fl_of_Z 1 end.
Theorem C68_schedule_refuted : exists o1 o2, any_schedule 2 3 o1 /\ any_schedule 2 3 o2 /\
  aad_total w_sums 2 o1 = Ok (fl_of_Z (2 ^ 53)) /\ aad_total w_sums 2 o2 = Ok (fl_of_Z (2 ^ 53 + 2)).
Proof.
  exists [(0%nat, 0%nat); (1%nat, 0%nat); (2%nat, 0%nat)], [(0%nat, 0%nat); (1%nat, 1%nat); (2%nat, 1%nat)].
  split; [|split]; [split; [reflexivity|]; repeat (constructor; [now left|]); constructor| |split; vm_compute; reflexivity].
  split; [reflexivity|]. constructor; [now left|]. repeat (constructor; [right; now left|]). constructor.
Qed.
(** Finding: without sensitivities the total does not depend on the schedule (C68_batches), but in binary64 it depends on the number of
    threads, which decides the batches. *)
Definition w_values (first : Z) (i : nat) : num := if first + Z.of_nat i =? 0 then fl_of_Z (2 ^ 53) else fl_of_Z 1.
Theorem C68_threads_refuted : exists t1 t2, tasks 2600 1 = Ok t1 /\ tasks 2600 2 = Ok t2 /\
  SFltb (sum_batches t1 w_values) (sum_batches t2 w_values) = true.
Proof. eexists _, _. split; [vm_compute; reflexivity|]. split; [vm_compute; reflexivity|]. vm_compute. reflexivity. Qed.
End Float68.
Print Assumptions C68_no_variables_refuted.
Print Assumptions C68_twice_refuted.
Print Assumptions C68_schedule_refuted.
Print Assumptions C68_threads_refuted.
