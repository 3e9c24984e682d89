(** Words for decompositions over the reals. *)
From Coq Require Import Reals List Arith.
From Verif Require Import Base LinNum CholModel BandSpec.
Import ListNotations.
Local Open Scope R_scope.
(** an n by n matrix *)
Definition fits (m : @sq RealLin) (n : nat) : Prop := length m = n /\ Forall (fun r => length r = n) m.
Definition symmetric (n : nat) (a : nat -> nat -> R) : Prop := forall i j, (i < n)%nat -> (j < n)%nat -> a i j = a j i.
(** row i of the n by n matrix times x *)
Definition row_times (n : nat) (a : nat -> nat -> R) (x : list R) (i : nat) : R := sum n (fun j => a i j * nth j x 0).
(** lower triangle, diagonal included *)
Definition lower (a : nat -> nat -> R) (i j : nat) : R := if (j <=? i)%nat then a i j else 0.
(** the matrix times its transpose *)
Definition gram (n : nat) (l : nat -> nat -> R) (i j : nat) : R := sum n (fun k => l i k * l j k).
(** average of the first p diagonal elements *)
Definition average (l : nat -> nat -> R) (p : nat) : R := sum p (fun k => l k k) / INR p.
(** x, of which the first n numbers count, solves the n by n system with right-hand side b *)
Definition solves (n : nat) (a : nat -> nat -> R) (x b : list R) : Prop := forall i, (i < n)%nat -> row_times n a x i = nth i b 0.
(** a Cholesky factor stored as the code stores it acts as the n by n matrix a: Multiply and Solve are those of a, and the correlated
    numbers are made with a matrix whose product with its transpose is a *)
Definition acts_as (low : @sq RealLin) (n : nat) (a : nat -> nat -> R) : Prop :=
  (forall x, length x = n -> exists b, chol_multiply low x = Ok b /\ length b = n /\ forall i, (i < n)%nat -> nth i b 0 = row_times n a x i) /\
  (forall b x, (n <= length b)%nat -> (n <= length x)%nat -> exists r, chol_solve low b x = Ok r /\ length r = length x /\ solves n a r b) /\
  exists f, (forall i j, (i < n)%nat -> (j < n)%nat -> gram n f i j = a i j) /\
    forall z, (n <= length z)%nat -> exists c, chol_correlate low z = Ok (c, StartOfOutput) /\ length c = n /\ forall i, (i < n)%nat -> nth i c 0 = row_times n f z i.
(** the diagonal exceeds the rest of its row by m and is at most D *)
Definition diagonally_dominant (n : nat) (a : nat -> nat -> R) (m D : R) : Prop :=
  forall i, (i < n)%nat -> m + sum n (fun j => if (j =? i)%nat then 0 else Rabs (a i j)) <= a i i <= D.
