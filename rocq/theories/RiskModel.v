(** The sensitivities of MCSimulation<Number_>, dal/script/simulation.hpp:38-53, 159-267.  The tape is AadModel, the evaluator FuzzyModel; this
    file adds what happens to the adjoints. *)
From Coq Require Import ZArith List.
From Verif Require Import Base Vec StringModel AadModel ScriptModel SimModel.
Import ListNotations.

(** The adjoints of the numbers put on the tape first, read off at the end of a task (simulation.hpp:220-225, 241-246): the parameters of the model
    and the constant variables, in the order InitModel4ParallelAAD puts them there (:44-48).  [run] is the task up to PropagateMarkToStart
    (AadModel.path_gradient). *)
Section Task.
Context {D : Type}.
Fixpoint read_adjoints (ns : list (number D)) (t : tape D) (j m : nat) : outcome (list D) :=
  match m with O => Ok [] | S k => do n <- get ns j; do a <- get_adjoint (at_node n) t; do r <- read_adjoints ns t (S j) k; Ok (a :: r) end.
Definition task_adjoints (run : outcome (list (number D) * tape D)) (m : nat) : outcome (list D) := do (ns, t) <- run; read_adjoints ns t 0 m.
End Task.

Section Risks.
Context {N : Num}.
(** [risks_[j] += adjoint_j / n_paths] for every parameter, then every constant variable (simulation.hpp:221-225, 242-246).  The vectors have the
    length of the names of the parameters and constants; [adj] holds the adjoints in this order. *)
Fixpoint add_adjoints (n : num) (risks adj : list num) : list num :=
  match risks, adj with
  | r :: rs, a :: l => n_add r (n_div a n) :: add_adjoints n rs l
  | _, _ => risks
  end.
(** simulation.hpp:185, 189-190, 205: each task adds to the risks of the thread that runs it; [order] is the order in which the tasks are run, each
    with the number of its thread, and [adjoints k] what task [k] leaves on its parameters and constants *)
Fixpoint thread_risks (n : num) (adjoints : nat -> list num) (order : list (nat * nat)) (res : list (list num)) : outcome (list (list num)) :=
  match order with
  | [] => Ok res
  | (k, th) :: r =>
      do old <- get res th; do res' <- put res th (add_adjoints n old (adjoints k)); thread_risks n adjoints r res'
  end.
(** simulation.hpp:263-264 *)
Fixpoint add_risks (a b : list num) : list num :=
  match a, b with x :: r, y :: l => n_add x y :: add_risks r l | _, _ => a end.
(** simulation.hpp:184-185, 256-266: [names] is the number of names, [zeros] the vectors SimResults_ starts with (:22) *)
Definition total_risks (names : nat) (n : num) (adjoints : nat -> list num) (pool : nat) (order : list (nat * nat)) : outcome (list num) :=
  let zeros := repeat n_zero names in
  do res <- thread_risks n adjoints order (repeat zeros (num_threads pool));
  Ok (fold_left add_risks res zeros).
(** simulation.hpp:21-34 SimResults_: results_ maps each name to the place of its risk, names equal up to case (std::map over String_) to the last
    one's; operator[] with a name that is not there dereferences a null pointer *)
Fixpoint place_of (names : list str) (i : nat) (n : str) : option nat :=
  match names with
  | [] => None
  | x :: r => match place_of r (S i) n with Some j => Some j | None => if ci_eqb x n then Some i else None end
  end.
Definition result_of (names : list str) (risks : list num) (n : str) : outcome num :=
  match place_of names 0 n with Some i => get risks i | None => UB end.
(** public/src/value.cpp:38-39: what is reported, name after name *)
Fixpoint report (all : list str) (risks : list num) (names : list str) : outcome (list (str * num)) :=
  match names with [] => Ok [] | n :: r => do v <- result_of all risks n; do l <- report all risks r; Ok ((n, v) :: l) end.
End Risks.
