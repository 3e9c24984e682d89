(** MCSimulation<double> of dal/script/simulation.hpp as one loop - the generators, the paths and the evaluators of the threads together -
    and ValueByMonteCarlo (public/src/value.cpp) with the Black-Scholes model. *)
From Coq Require Import List ZArith Bool String Reals.
From Coq Require Import Floats.SpecFloat.
From Flocq Require Core IEEE754.BinarySingleNaN.
From Verif Require Import Base Vec StringModel ScriptModel ScriptSpec SimModel RandomModel DomainModel DomainSpec ValueModel DrawModel.
From Verif Require BsModel.
Import ListNotations.
Open Scope Z_scope.

Section Price.
Context {N : Num}.
Section Loop.
Context {G : Type}.
Variable skip : Z -> G -> outcome G.
Variable fill : G -> outcome (list spec_float * G).
Variable dress : list spec_float -> list spec_float.
(** GeneratePath(gaussVec, &path): the vector and the path as it was give the path as it is after *)
Variable generate : list spec_float -> list sample -> outcome (list sample).
(** Evaluate or EvaluateCompiled, and the index of the payoff *)
Variable eval : list sample -> estate -> outcome estate.
Variable at_ : Z.
(** simulation.hpp:128-144: a path of a task after another, with the generator, the path and the evaluator (or its state) of the
    thread.  gaussVec is not kept: FillNormal overwrites it (random.cpp, brownianbridge.cpp:65-85; see DrawModel) *)
Fixpoint price_paths (k : nat) (g : G) (path : list sample) (st : estate) (sum : num) : outcome (G * list sample * (estate * num)) :=
  match k with
  | O => Ok (g, path, (st, sum))
  | S j =>
      do p <- fill g; do path' <- generate (dress (fst p)) path; do s <- eval path' st; do v <- vget (vars s) at_;
      price_paths j (snd p) path' s (n_add sum v)
  end.
(** simulation.hpp:122-146: the tasks in the order in which they are run, each with the number of the thread that runs it *)
Fixpoint price_tasks (ts : list (Z * Z)) (order : list (nat * nat)) (gens : list G) (paths : list (list sample)) (states : list estate) (res : list num) : outcome (list num) :=
  match order with
  | [] => Ok res
  | (k, th) :: r =>
      do t <- get ts k; do path <- get paths th; do g <- get gens th; do g1 <- skip (fst t) g; do st <- get states th; do old <- get res k;
      do p <- price_paths (Z.to_nat (snd t)) g1 path st old;
      do gens' <- put gens th (fst (fst p)); do paths' <- put paths th (snd (fst p));
      do states' <- put states th (fst (snd p)); do res' <- put res k (snd (snd p));
      price_tasks ts r gens' paths' states' res'
  end.
(** simulation.hpp:83-157 once the model is ready: each thread has a generator, a path and an evaluator of its own, all made alike *)
Definition price_with (g : G) (blank : list sample) (p : product) (n_paths : Z) (pool : nat) (order : list (nat * nat)) : outcome num :=
  do ts <- tasks n_paths (Z.of_nat (num_threads pool));
  do res <- price_tasks ts order (repeat g (num_threads pool)) (repeat blank (num_threads pool)) (repeat (new_state p) (num_threads pool)) (repeat n_zero (List.length ts));
  Ok (fold_left n_add res n_zero).
End Loop.

Section Create.
(** as in DrawModel: the Sobol generator, the inverse normal distribution and the bridge *)
Context {B : Type}.
Variable sobol_skip : Z -> B -> outcome B.
Variable sobol_fill : B -> outcome (list spec_float * B).
Variable sobol_new : nat -> B.
Variable inverse_ncdf : spec_float -> spec_float.
Variable bridged : list spec_float -> list spec_float.
(** simulation.hpp:86-157 with CreateRNG (simulation.cpp:11-25) for a model of dimension [dim] *)
Definition priced (generate : list spec_float -> list sample -> outcome (list sample)) (blank : list sample) (eval : list sample -> estate -> outcome estate) (p : product)
  (method : str) (dim : nat) (use_bb : bool) (n_paths : Z) (pool : nat) (order : list (nat * nat)) : outcome num :=
  let dress := if use_bb then bridged else fun v => v in
  do k <- kind_of method;
  match k with
  | KSobol => price_with sobol_skip sobol_fill dress generate eval (payoff_at p) (sobol_new dim) blank p n_paths pool order
  | KMrg32 => price_with (skip_to mrg_skip) (fill_normal mrg_next inverse_ncdf dim) dress generate eval (payoff_at p) (rng_new (mrg_of_seed 1024) dim) blank p n_paths pool order
  | KIrn => do g <- irn_of_seed 1024; price_with (skip_to irn_skip) (fill_normal irn_next inverse_ncdf dim) dress generate eval (payoff_at p) (rng_new g dim) blank p n_paths pool order
  end.
End Create.
End Price.

(** * With the Black-Scholes model, on real numbers: the draws are binary64 numbers, taken as the real numbers they are (infinities
    and NaN as 0); everything after is exact *)
Section BlackScholes.
Variables (f_log f_sqrt f_exp : R -> R) (f_pow : R -> R -> R).
Local Notation RN := (RNum f_log f_sqrt f_exp f_pow).
Context {B : Type}.
Variable sobol_skip : Z -> B -> outcome B.
Variable sobol_fill : B -> outcome (list spec_float * B).
Variable sobol_new : nat -> B.
Variable inverse_ncdf : spec_float -> spec_float.
Variable bridged : list spec_float -> list spec_float.
Definition real_of (x : spec_float) : R := BinarySingleNaN.SF2R Zaux.radix2 x.
Definition to_model (s : @sample RN) : BsModel.sample := {| BsModel.s_spot := spot s; BsModel.s_numeraire := numeraire s |}.
Definition of_model (s : BsModel.sample) : @sample RN := @Sample RN (BsModel.s_spot s) (BsModel.s_numeraire s).
(** GeneratePath of blackscholes.hpp:127-142 (BsModel) *)
Definition bs_generate (m : BsModel.bs) (defs : list bool) (st : BsModel.state) (gauss : list spec_float) (path : list (@sample RN)) : outcome (list (@sample RN)) :=
  do p <- BsModel.generate_path m defs st (map real_of gauss) (map to_model path); Ok (map of_model p).
(** a model as made: blackscholes.hpp:32-38 *)
Definition fresh_model : BsModel.state := {| BsModel.timeline := []; BsModel.today := false; BsModel.stds := []; BsModel.drifts := []; BsModel.numeraires := [] |}.
(** InitializePath, math/aad/sample.hpp:45-66 *)
Definition blank_path (n : nat) : list (@sample RN) := repeat (@Sample RN 0%R 1%R) n.
(** ValueByMonteCarlo without sensitivities, value.cpp:29-31, 40-43, and simulation.hpp:78-157.  The definition line of a new product has
    an entry for each event date, with the numeraire (event.cpp:147-157) *)
Definition bs_value {D : DomNum RN} (years : Z -> R) (today : Z) (m : BsModel.bs) (past : list (list (@stmt RN))) (dates : list Z) (future : list (list (@stmt RN)))
  (method : str) (use_bb : bool) (n_paths : Z) (pool : nat) (order : list (nat * nat)) : outcome R :=
  do r <- @pre_process RN D years today false false (new_product [] past dates future);
  let q := snd r in
  let defs := map (fun _ => true) (event_dates q) in
  do st1 <- BsModel.allocate fresh_model (time_line q); do st2 <- BsModel.init m (time_line q) defs st1;
  do total <- priced sobol_skip sobol_fill sobol_new inverse_ncdf bridged (bs_generate m defs st2) (blank_path (List.length defs)) (evaluator q) q
                method (BsModel.sim_dim st2) use_bb n_paths pool order;
  Ok (Rdiv total (IZR n_paths)).
End BlackScholes.
