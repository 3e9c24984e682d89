(** Words for the dense linear algebra over the reals. *)
From Coq Require Import Reals List Arith.
From Verif Require Import Base LinNum LinModel BandSpec.
Import ListNotations.
Local Open Scope R_scope.
(** all rows have the stated width *)
Definition shaped (m : matrix) : Prop := Forall (fun r => length r = mcols m) (mrows m).
(** the number in row i, column j *)
Definition entry (m : matrix) (i j : nat) : R := nth j (nth i (mrows m) []) 0.
(** m is the r by c matrix of the numbers f *)
Definition is_matrix (m : matrix) (r c : nat) (f : nat -> nat -> R) : Prop :=
  shaped m /\ nrows m = r /\ mcols m = c /\ forall i j, (i < r)%nat -> (j < c)%nat -> entry m i j = f i j.
(** v is the vector of the n numbers f *)
Definition is_vector (v : list R) (n : nat) (f : nat -> R) : Prop := length v = n /\ forall i, (i < n)%nat -> nth i v 0 = f i.
