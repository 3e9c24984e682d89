(** Model of the batching of dal/script/simulation.hpp (MCSimulation<double>, MCSimulation<Number_>) and of the thread numbers
    of dal/concurrency/threadpool.{hpp,cpp}.  What a path contributes is left open: a path is represented by its number and
    the results by the list of the path numbers added to them. *)
From Coq Require Import ZArith List Bool.
From Verif Require Import Base Vec.
Import ListNotations.
Open Scope Z_scope.

(** static_cast<int>(size_t): reduction modulo 2^32 *)
Definition to_int (z : Z) : Z := let r := z mod 2 ^ 32 in if r <? 2 ^ 31 then r else r - 2 ^ 32.
(** simulation.hpp:36 *)
Definition BATCH_SIZE : Z := 1024.
(** simulation.hpp:107, 176: batch_size; the addition is an int addition *)
Definition batch_size (n_paths n_threads : Z) : outcome Z :=
  if n_threads =? 0 then UB
  else let q := to_int (n_paths / n_threads) in if q =? 2 ^ 31 - 1 then UB else Ok (Z.max BATCH_SIZE (q + 1)).
(** simulation.hpp:112-149, 178-180, 187-254: the loop that spawns the tasks, as the list of (firstPath, pathsInTask) *)
Fixpoint spawn (fuel : nat) (bs first left : Z) : outcome (list (Z * Z)) :=
  if left <=? 0 then Ok []
  else match fuel with
       | O => OutOfFuel
       | S f => let k := Z.min left bs in do r <- spawn f bs (first + k) (left - k); Ok ((first, k) :: r)
       end.
Definition tasks (n_paths n_threads : Z) : outcome (list (Z * Z)) :=
  do bs <- batch_size n_paths n_threads; spawn (Z.to_nat (to_int n_paths)) bs 0 (to_int n_paths).
(** simulation.hpp:108-110: capacity reserved for the per-task results, to which tasks hold references *)
Definition reserved (n_paths n_threads : Z) : outcome Z := do bs <- batch_size n_paths n_threads; Ok (n_paths / bs + 1).

(** threadpool.hpp:40-44, threadpool.cpp:24-37: a pool started with [n] threads has workers numbered 1 .. n-1, and the thread
    that waits (any thread outside the pool) is number 0 *)
Definition thread_numbers (n : nat) : list nat := 0%nat :: map (fun i => i + 1)%nat (seq 0 (n - 1)).
Definition num_threads (n : nat) : nat := ((n - 1) + 1)%nat.

(** The paths of one task in the order simulated (simulation.hpp:127-145, 202-218, 231-239) *)
Definition paths_of (t : Z * Z) : list Z := zrange (fst t) (Z.to_nat (snd t)).
(** MCSimulation<double>: every task adds to its own result; [order] is the order in which the tasks are run, each with the
    number of the thread that runs it, whose vectors are indexed by that number (simulation.hpp:122-126) *)
Fixpoint run_double (ts : list (Z * Z)) (order : list (nat * nat)) (areas : nat) (res : list (list Z)) : outcome (list (list Z)) :=
  match order with
  | [] => Ok res
  | (k, th) :: r =>
      if (th <? areas)%nat then
        do t <- get ts k; do old <- get res k; do res' <- put res k (old ++ paths_of t); run_double ts r areas res'
      else UB
  end.
(** MCSimulation<Number_>: every task adds to the results of its thread (simulation.hpp:185, 205, 249) *)
Fixpoint run_aad (ts : list (Z * Z)) (order : list (nat * nat)) (res : list (list Z)) : outcome (list (list Z)) :=
  match order with
  | [] => Ok res
  | (k, th) :: r => do t <- get ts k; do old <- get res th; do res' <- put res th (old ++ paths_of t); run_aad ts r res'
  end.
