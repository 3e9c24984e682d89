(** The numbers a Monte Carlo simulation draws: CreateRNG of dal/script/simulation.cpp, and the part of MCSimulation<double>
    (dal/script/simulation.hpp) that moves the generators of the threads and fills the vectors of the paths. *)
From Coq Require Import List ZArith Bool String.
From Coq Require Import Floats.SpecFloat.
From Verif Require Import Base Vec StringModel SimModel RandomModel.
Import ListNotations.
Open Scope Z_scope.

(** what CreateRNG makes: simulation.cpp:13-20.  The strings are compared by String_'s operator==, which ignores case *)
Inductive kind := KSobol | KMrg32 | KIrn.
Definition kind_of (method : str) : outcome kind :=
  if ci_eqb method (lit "sobol") then Ok KSobol
  else if ci_eqb method (lit "mrg32") then Ok KMrg32
  else if ci_eqb method (lit "irn") then Ok KIrn
  else Throw.

Section Threads.
Context {G : Type}.
Variable skip : Z -> G -> outcome G.
Variable fill : G -> outcome (list spec_float * G).
(** what becomes of a vector after the generator has filled it: nothing, or the bridge *)
Variable dress : list spec_float -> list spec_float.
(** simulation.hpp:130-131, 138-139: the vectors of the paths of one task.  BrownianBridge_::FillNormal, brownianbridge.cpp:65-85,
    has the generator fill its inner vector, all of which it overwrites, and makes the path's vector from that one alone (C24) *)
Fixpoint fills (k : nat) (g : G) : outcome (list (list spec_float) * G) :=
  match k with
  | O => Ok ([], g)
  | S j => do p <- fill g; do r <- fills j (snd p); Ok (dress (fst p) :: fst r, snd r)
  end.
(** simulation.hpp:122-145 the tasks, in the order run, each by some thread with the generator of that thread; BrownianBridge_'s
    SkipTo is its generator's (brownianbridge.hpp:33-35).  A task's vectors are kept under its number *)
Fixpoint run_draws (ts : list (Z * Z)) (order : list (nat * nat)) (gens : list G) (res : list (list (list spec_float))) : outcome (list (list (list spec_float))) :=
  match order with
  | [] => Ok res
  | (k, th) :: r =>
      do t <- get ts k; do g <- get gens th;
      do g1 <- skip (fst t) g; do p <- fills (Z.to_nat (snd t)) g1;
      do gens' <- put gens th (snd p); do res' <- put res k (fst p); run_draws ts r gens' res'
  end.
(** simulation.hpp:86-88: each thread has a generator of its own, all made alike *)
Definition simulate (g : G) (n_paths : Z) (pool : nat) (order : list (nat * nat)) : outcome (list (list (list spec_float))) :=
  do ts <- tasks n_paths (Z.of_nat (num_threads pool));
  run_draws ts order (repeat g (num_threads pool)) (repeat [] (Datatypes.length ts)).
End Threads.

Section Create.
(** the Sobol generator, which is not in the repository (NewSobol(n_dim, 2048), made with no exception), and the inverse normal
    distribution *)
Context {B : Type}.
Variable sobol_skip : Z -> B -> outcome B.
Variable sobol_fill : B -> outcome (list spec_float * B).
Variable sobol_new : nat -> B.
Variable inverse_ncdf : spec_float -> spec_float.
(** BrownianBridge_ of a positive dimension *)
Variable bridged : list spec_float -> list spec_float.
(** CreateRNG, simulation.cpp:11-25, for each thread, and the draws of the simulation.  Both pseudo-random generators have seed 1024 *)
Definition simulation_draws (method : str) (dim : nat) (use_bb : bool) (n_paths : Z) (pool : nat) (order : list (nat * nat)) : outcome (list (list (list spec_float))) :=
  let dress := if use_bb then bridged else fun v => v in
  do k <- kind_of method;
  match k with
  | KSobol => simulate sobol_skip sobol_fill dress (sobol_new dim) n_paths pool order
  | KMrg32 => simulate (skip_to mrg_skip) (fill_normal mrg_next inverse_ncdf dim) dress (rng_new (mrg_of_seed 1024) dim) n_paths pool order
  | KIrn => do g <- irn_of_seed 1024; simulate (skip_to irn_skip) (fill_normal irn_next inverse_ncdf dim) dress (rng_new g dim) n_paths pool order
  end.
End Create.
