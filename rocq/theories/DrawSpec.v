(** Words for C85. *)
From Coq Require Import List ZArith Bool Permutation.
From Coq Require Import Floats.SpecFloat.
From Verif Require Import Base SimModel RandomModel RandomSpec.
Import ListNotations.
Open Scope Z_scope.

(** the tasks in any order, each run by some thread of the pool *)
Definition some_schedule (pool tasks : nat) (order : list (nat * nat)) : Prop :=
  Permutation (map fst order) (seq 0 tasks) /\ Forall (fun p => In (snd p) (thread_numbers pool)) order.
(** what is asked of a sequence generator: it stands before some vector of one sequence; SkipTo(n) makes it stand before vector [n],
    wherever it stood; filling gives the vector it stands before and moves on by one *)
Definition sequence {G} (skip : Z -> G -> outcome G) (fill : G -> outcome (list spec_float * G)) (vector : Z -> list spec_float) (start : G) : Prop :=
  exists stands : G -> Z -> Prop,
    (exists n, stands start n) /\
    (forall g n m, stands g n -> 0 <= m -> exists g', skip m g = Ok g' /\ stands g' m) /\
    (forall g n, stands g n -> exists g', fill g = Ok (vector n, g') /\ stands g' (n + 1)).
(** the vector of path [i] of a task that begins at path [first], with the generator mrg32: [dim] successive numbers of the recurrence
    of seeds 1024 and 1025, from the place SkipTo goes to on *)
Definition mrg_vector (inverse : spec_float -> spec_float) (dim : nat) (first : Z) (i : nat) : list spec_float :=
  map inverse (map (deviate 1024 1025) (seq (Z.to_nat (first * Z.of_nat dim / 2) + i * dim) dim)).
