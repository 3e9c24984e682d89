(** Words for C93. *)
From Coq Require Import List ZArith.
From Coq Require Import Floats.SpecFloat.
From Verif Require Import Base RandomModel RandomSpec.
Import ListNotations.

(** row [j] of the numbers the generator mrg32 makes one after the other, [dim] numbers a row *)
Definition row (inverse : spec_float -> spec_float) (dim j : nat) : list spec_float := map inverse (map (deviate 1024 1025) (seq (j * dim) dim)).
(** the rows the paths of the tasks use, path by path: a task that begins at path p begins at row p / 2 *)
Definition rows_used (ts : list (Z * Z)) : list nat := flat_map (fun t => seq (Z.to_nat (fst t) / 2) (Z.to_nat (snd t))) ts.
(** [b] tasks of [2 * h] paths each *)
Definition even_batches (h b : nat) : list (Z * Z) := map (fun i => (Z.of_nat (2 * h * i), Z.of_nat (2 * h))) (seq 0 b).
