(** Words for iterative solvers. *)
From Coq Require Import Reals List Arith.
From Verif Require Import BandSpec CholSpec.
Import ListNotations.
Local Open Scope R_scope.
(** f multiplies vectors of size n by the matrix a *)
Definition multiplies (n : nat) (a : nat -> nat -> R) (f : list R -> list R) : Prop :=
  forall x, length x = n -> length (f x) = n /\ forall i, (i < n)%nat -> nth i (f x) 0 = row_times n a x i.
Definition nonzero (n : nat) (x : list R) : Prop := exists i, (i < n)%nat /\ nth i x 0 <> 0.
Definition positive_definite (n : nat) (a : nat -> nat -> R) : Prop :=
  forall x, length x = n -> nonzero n x -> 0 < sum n (fun i => nth i x 0 * row_times n a x i).
(** Euclidean norms of b and of b - A x *)
Definition size_of (n : nat) (b : list R) : R := R_sqrt.sqrt (sum n (fun i => nth i b 0 ^ 2)).
Definition residual (n : nat) (a : nat -> nat -> R) (b x : list R) : R := R_sqrt.sqrt (sum n (fun i => (nth i b 0 - row_times n a x i) ^ 2)).
