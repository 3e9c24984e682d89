(** Valuing a script by simulation: ScriptProduct_::PreProcess and Compile (dal/script/event.cpp), the two MCSimulation functions
    (dal/script/simulation.hpp) as far as values go, and ValueByMonteCarlo (public/src/value.cpp).  The parts are those of ScriptModel,
    FuzzyModel (IF processor), DomainModel and SimModel; this file puts them together. *)
From Coq Require Import String ZArith List Bool.
From Verif Require Import Base Vec StringModel ScriptModel FuzzyModel DomainModel SimModel.
Import ListNotations.
Open Scope Z_scope.

Section Value.
Context {N : Num}.
(** ScriptProduct_, dal/script/event.hpp:32-59: the parsed events (C20 says which) and what preprocessing adds to them.  defLine_ holds, per
    date, a fixed request for the numeraire, one forward and one discount, and is not modelled apart from timeLine_.  The compiled streams
    are recomputed from the events where they are run (ScriptModel). *)
Record product := Product {
  payoff : str; payoff_at : Z; (** payoffIdx_; -1 stands for the largest size_t *)
  past_events : list (list stmt); event_dates : list Z; events : list (list stmt);
  var_values : list num; var_names : list str; const_names : list str; const_values : list num;
  time_line : list num }.
Definition new_product (payoff : str) (past : list (list stmt)) (dates : list Z) (future : list (list stmt)) : product :=
  Product payoff (-1) past dates future [] [] [] [] [].
Definition with_events (p : product) (past future : list (list stmt)) : product :=
  Product (payoff p) (payoff_at p) past (event_dates p) future (var_values p) (var_names p) (const_names p) (const_values p) (time_line p).
(** the past events are visited before the future ones, event.hpp:94-104 *)
Definition all_events (p : product) : list (list stmt) := past_events p ++ events p.
Definition split_events (p : product) (l : list (list stmt)) : product :=
  with_events p (firstn (length (past_events p)) l) (skipn (length (past_events p)) l).

(** IndexVariables, event.cpp:87-101: a payoff index already set is only replaced by the index of the variable with the payoff's name *)
Definition index_variables (p : product) : product :=
  let '(m, l) := index_events (all_events p) (Maps [] []) in
  let at_ := match find_name (v_names m) (payoff p) with Some i => Z.of_nat i | None => payoff_at p end in
  let at_ := if at_ =? -1 then Z.of_nat (length (v_names m)) - 1 else at_ in
  let q := split_events p l in
  Product (payoff q) at_ (past_events q) (event_dates q) (events q) (var_values q) (v_names m) (map fst (c_names m)) (map snd (c_names m)) (time_line q).
(** PastEvaluate, event.cpp:103-107, 137 *)
Definition past_values (p : product) : outcome product :=
  do v <- past_evaluate (const_values p) (length (var_names p)) (past_events p);
  Ok (Product (payoff p) (payoff_at p) (past_events p) (event_dates p) (events p) v (var_names p) (const_names p) (const_values p) (time_line p)).
(** IFProcess, event.cpp:109-113 *)
Definition if_process (p : product) : outcome (Z * product) :=
  do r <- if_events (all_events p) if_init; Ok (max_level (fst r), split_events p (snd r)).
(** DomainProcess, event.cpp:116-119, and ConstCondProcess, event.cpp:126-132 (the future events only) *)
Definition domain_process {D : DomNum N} (fuzzy : bool) (p : product) : outcome product :=
  do r <- dom_events fuzzy (all_events p) (dom_init (length (var_names p))); Ok (split_events p (snd r)).
Definition const_cond_process (p : product) : product := with_events p (past_events p) (cc_events (events p)).
(** PreProcess, event.cpp:135-159.  [years] stands for the conversion of a number of days to years, (date - evaluationDate) / 365.0; the
    time line is appended to. *)
Definition pre_process {D : DomNum N} (years : Z -> num) (today : Z) (fuzzy skip_domain : bool) (p : product) : outcome (Z * product) :=
  do p1 <- past_values (index_variables p);
  do r <- (if fuzzy || negb skip_domain then
             do a <- if_process p1; do p2 <- domain_process fuzzy (snd a); Ok (fst a, const_cond_process p2)
           else Ok (0, p1));
  let q := snd r in
  Ok (fst r, Product (payoff q) (payoff_at q) (past_events q) (event_dates q) (events q) (var_values q) (var_names q) (const_names q) (const_values q)
               (time_line q ++ map (fun d => years (d - today)) (event_dates q))).
(** ConstProcess and Compile, event.cpp:121-124, 181-209: the constants are found over the past and the future events; the streams are made
    of the future ones *)
Definition compile (p : product) : outcome product :=
  do a <- const_events (past_events p) (known_init (length (var_names p))); do b <- const_events (events p) (fst a);
  Ok (with_events p (snd a) (snd b)).

(** * The paths of a task, simulation.hpp:128-144: [eval] is Evaluate or EvaluateCompiled with the state of the thread, [draw i] the i-th path
    generated after SkipTo(firstPath).  The payoff is read without a check. *)
Section Paths.
Variable eval : list sample -> estate -> outcome estate.
Variable at_ : Z.
Fixpoint run_paths (draw : nat -> list sample) (i k : nat) (st : estate) (sum : num) : outcome (estate * num) :=
  match k with
  | O => Ok (st, sum)
  | S k' => do s <- eval (draw i) st; do v <- vget (vars s) at_; run_paths draw (S i) k' s (n_add sum v)
  end.
(** MCSimulation<double>, simulation.hpp:101-102, 117-152: each task adds to its own result and uses the state of the thread that runs it;
    [order] is the order in which the tasks are run, each with the number of its thread *)
Fixpoint run_tasks (draw : Z -> nat -> list sample) (ts : list (Z * Z)) (order : list (nat * nat)) (states : list estate) (res : list num) : outcome (list num) :=
  match order with
  | [] => Ok res
  | (k, th) :: r =>
      do t <- get ts k; do st <- get states th; do old <- get res k;
      do p <- run_paths (draw (fst t)) 0 (Z.to_nat (snd t)) st old;
      do states' <- put states th (fst p); do res' <- put res k (snd p); run_tasks draw ts r states' res'
  end.
End Paths.
(** Evaluator_ and EvalState_ as built, event.hpp:71-86, evaluator.hpp:38-45 *)
Definition new_state (p : product) : estate := EState (var_values p) empty_stack empty_stack.
Definition evaluator (p : product) (scenario : list sample) (s : estate) : outcome estate :=
  evaluate (const_values p) (var_values p) scenario (events p) s.
Definition compiled_evaluator (fuel : nat) (p : product) (scenario : list sample) (s : estate) : outcome estate :=
  evaluate_compiled 0 fuel (var_values p) scenario (events p) s.
(** simulation.hpp:69-157; [draw times first i]: the i-th path after SkipTo(first), made by the model initialised with the time line.
    Accumulate starts at zero (dal/utilities/numerics.hpp:18-26). *)
Definition mc_simulation (eval : list sample -> estate -> outcome estate) (p : product) (draw : list num -> Z -> nat -> list sample)
  (n_paths : Z) (pool : nat) (order : list (nat * nat)) : outcome num :=
  do ts <- tasks n_paths (Z.of_nat (num_threads pool));
  do res <- run_tasks eval (payoff_at p) (draw (time_line p)) ts order (repeat (new_state p) (num_threads pool)) (repeat n_zero (length ts));
  Ok (fold_left n_add res n_zero).
(** ValueByMonteCarlo without sensitivities, public/src/value.cpp:14-46 and event.hpp:165 (the payoff's name is empty).  [of_int] is
    static_cast<double>. *)
Definition model_store : list str := [lit "BSModelData_"; lit "DupireModelData_"].
Definition value_by_monte_carlo {D : DomNum N} (years : Z -> num) (of_int : Z -> num) (today : Z) (model_type : str)
  (past : list (list stmt)) (dates : list Z) (future : list (list stmt))
  (draw : list num -> Z -> nat -> list sample) (n_paths : Z) (pool : nat) (order : list (nat * nat)) : outcome num :=
  if negb (existsb (ci_eqb model_type) model_store) then Throw else
  do r <- pre_process years today false false (new_product [] past dates future);
  do total <- mc_simulation (evaluator (snd r)) (snd r) draw n_paths pool order;
  Ok (n_div total (of_int n_paths)).
(** * The sums of MCSimulation<Number_>, simulation.hpp:185-186, 204-205, 249, 258-265: a task adds its paths up and adds the sum to the result
    of the thread that runs it; the results of the threads are added up at the end.  [task_sum k] is the sum of the k-th task. *)
Fixpoint thread_sums (task_sum : nat -> num) (order : list (nat * nat)) (res : list num) : outcome (list num) :=
  match order with
  | [] => Ok res
  | (k, th) :: r => do old <- get res th; do res' <- put res th (n_add old (task_sum k)); thread_sums task_sum r res'
  end.
Definition aad_total (task_sum : nat -> num) (pool : nat) (order : list (nat * nat)) : outcome num :=
  do res <- thread_sums task_sum order (repeat n_zero (num_threads pool)); Ok (fold_left n_add res n_zero).
End Value.
